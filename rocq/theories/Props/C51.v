(** C51: moving and copying tables keeps their data. *)
From Coq Require Import ZArith Reals String List Sorting.Permutation.
From Verif Require Import Model.Base Model.Float Model.ErrorBound Model.Segments Model.Multivariate
  Model.Copies Spec.ErrorBoundSpec Spec.TimestampsSpec Spec.SegmentsSpec Spec.CopiesSpec
  Proofs.MacaqueVLossyProofs Proofs.RestoreWitnesses Proofs.CopiesProofs Proofs.CopiesExample.
Import ListNotations.
Open Scope Z_scope.

(** For any tables, any events, any step that fails, any time at which the process is killed and
    any writes of other clients: if no client writes to the source between reading and truncating
    it, all rows are in the source, in the target or in both, no row is lost or duplicated within a
    table, and if the move returns without an error, what was in the source is in the target.
    Missing: moving a table to itself and writes to the source, which are false, see below. *)
Theorem c51_move_keeps_rows_partial : forall source target w events,
  source <> target -> w source <> None -> w target <> None ->
  source_not_written source target w events ->
  let (p, w') := run source target w events in
  let s := rows_at w source in
  let t := rows_at w target in
  let more_s := written_by_others source events in
  let more_t := written_by_others target events in
  (p = Returned true -> all_in_target s t more_s more_t (rows_at w' source) (rows_at w' target))
  /\ (all_in_source s t more_s more_t (rows_at w' source) (rows_at w' target)
      \/ all_in_both s t more_s more_t (rows_at w' source) (rows_at w' target)
      \/ all_in_target s t more_s more_t (rows_at w' source) (rows_at w' target)).
Proof. exact move_keeps. Qed.
Print Assumptions c51_move_keeps_rows_partial.

Example c51_move_example : home <> away /\ plain_world home <> None /\ plain_world away <> None
  /\ source_not_written home away plain_world quiet_events.
Proof. exact quiet_example. Qed.
Example c51_move_example_result : let (p, w) := run home away plain_world quiet_events in
  (p, rows_at w home, rows_at w away)
  = (Returned true, [Plain_row 6],
     [Plain_row 3; Plain_row 5; Plain_row 1; Plain_row 2; Plain_row 4]).
Proof. exact quiet_result. Qed.

(** Other tables are not changed. *)
Theorem c51_other_tables : forall source target w events q,
  w q <> None -> q <> source -> q <> target ->
  rows_at (snd (run source target w events)) q = rows_at w q ++ written_by_others q events.
Proof. exact other_tables. Qed.
Print Assumptions c51_other_tables.

(** A move succeeds if nothing it calls fails and the rows of the source can be in the target;
    otherwise it returns an error and changes nothing, whatever happens meanwhile. *)
Theorem c51_move_checks : forall source target w s t, w source = Some s -> w target = Some t ->
  (fits s t -> fst (run source target w [Move_step Succeeds; Move_step Succeeds; Move_step Succeeds])
               = Returned true)
  /\ (~ fits s t -> forall events p, w p <> None -> fst (run source target w events) <> Returned true
       /\ rows_at (snd (run source target w events)) p = rows_at w p ++ written_by_others p events).
Proof. exact move_checks. Qed.
Print Assumptions c51_move_checks.

(** Columns that cannot have nulls can be moved to columns that can, and not the other way around. *)
Example c51_move_checks_example :
  let strict := Table_state Normal_table [Column "a" (Other_type 3) false] [Plain_row 1] in
  let lenient := Table_state Normal_table [Column "b" (Other_type 3) true] [Plain_row 2] in
  fits strict lenient /\ ~ fits lenient strict.
Proof.
  split.
  - split; [exact I|]. constructor; [|constructor]. now split.
  - intros (_ & H). inversion H as [|? ? ? ? (_ & X) _]. discriminate (X eq_refl).
Qed.

(** Moving a table to itself deletes all of its rows and returns without an error. *)
Theorem c51_move_to_itself_refuted : forall p w, w p <> None ->
  let (progress, w') := run p p w [Move_step Succeeds; Move_step Succeeds; Move_step Succeeds] in
  progress = Returned true /\ rows_at w' p = [].
Proof. exact move_to_itself. Qed.
Print Assumptions c51_move_to_itself_refuted.

(** Rows written to the source after it has been read are lost although the move returns without an
    error. *)
Theorem c51_concurrent_write_refuted : exists source target w events r,
  source <> target /\ let (p, w') := run source target w events in
  p = Returned true /\ In r (written_by_others source events)
  /\ ~ In r (rows_at w' source) /\ ~ In r (rows_at w' target).
Proof.
  exists home, away, plain_world, loud_events, (Plain_row 4). split; [discriminate|]. exact loud_result.
Qed.
Print Assumptions c51_concurrent_write_refuted.

(** If the source cannot be truncated, the rows are in both tables: moving again duplicates them. *)
Theorem c51_duplicates_refuted : exists source target w events,
  let (p, w') := run source target w events in
  (p, rows_at w' source, rows_at w' target)
  = (Returned false, [Plain_row 1; Plain_row 2], [Plain_row 3; Plain_row 1; Plain_row 2]).
Proof.
  exists home, away, plain_world, [Move_step Succeeds; Move_step Succeeds; Move_step Fails].
  exact duplicated_result.
Qed.
Print Assumptions c51_duplicates_refuted.

(** The segments of the target are within its error bounds after any events if the bounds of the
    source are at most as loose. Missing: bounds are not compared, see below. *)
Theorem c51_bounds_partial : forall P slack origin source target w events sb tb ss ts srows trows,
  (0 <= slack)%R ->
  w source = Some (Table_state (Series_table sb) ss srows) ->
  w target = Some (Table_state (Series_table tb) ts trows) ->
  Forall2 at_most_as_loose sb tb ->
  within_table_bounds P slack origin sb srows -> within_table_bounds P slack origin tb trows ->
  within_table_bounds P slack origin sb (written_by_others source events) ->
  within_table_bounds P slack origin tb (written_by_others target events) ->
  within_table_bounds P slack origin tb (rows_at (snd (run source target w events)) target).
Proof. exact move_bounds. Qed.
Print Assumptions c51_bounds_partial.

Example c51_bounds_example : Forall2 at_most_as_loose [Lossless; Relative (f32_of_Z 5); Lossless]
  [Lossless; Relative (f32_of_Z 5); Absolute (f32_of_Z 1)].
Proof.
  apply Forall2_cons; [exact I|]. apply Forall2_cons; [apply Rle_refl|]. apply Forall2_cons; [exact I|].
  apply Forall2_nil.
Qed.

(** A table without loss gets the segments of a table with an absolute bound of 1.0: what is read
    from it is not what was written. *)
Theorem c51_bounds_refuted : exists ts vs s ts' out,
  compress_univariate exact_platform (Absolute (f32_of_Z 1)) ts vs = Ok [s]
  /\ grid exact_platform s = Ok (ts', out)
  /\ (let (p, w) := run home away (lossy_world s) all_steps in
      p = Returned true /\ w away = Some (one_field [Lossless; Lossless] [Segment_row [] 1 s]))
  /\ forall slack, ~ Forall2 (within_bound slack Lossless) vs out.
Proof. exact lossy_moved. Qed.
Print Assumptions c51_bounds_refuted.

(** Fields are matched by their index: the pressure of the source becomes the temperature of a
    target with the same columns in another order. *)
Theorem c51_names_refuted : forall s,
  let (p, w) := run home away (two_tables (two_fields "pressure" "temperature" [Segment_row [] 1 s])
                                          (two_fields "temperature" "pressure" [])) all_steps in
  p = Returned true
  /\ w away = Some (two_fields "temperature" "pressure" [Segment_row [] 1 s]).
Proof. exact fields_exchanged. Qed.
Print Assumptions c51_names_refuted.

(** A copy changes nothing, or it adds the segments of the source that are within the interval to
    the target and changes nothing else. *)
Theorem c51_copy : forall source target start_time end_time tags e w,
  let (ok, w') := copy_time_series_table source target start_time end_time tags e w in
  (ok = false /\ (forall q, rows_at w' q = rows_at w q)
   \/ (forall q, q <> target -> rows_at w' q = rows_at w q)
      /\ rows_at w' target = rows_at w target
           ++ filter (in_interval start_time end_time) (rows_at w source)).
Proof. exact copy_result. Qed.
Print Assumptions c51_copy.

(** It succeeds if the segments of the source can be in the target and the write does not fail, and
    otherwise changes nothing. *)
Theorem c51_copy_checks : forall source target start_time end_time tags w s t bs bt,
  w source = Some s -> w target = Some t -> t_kind s = Series_table bs -> t_kind t = Series_table bt ->
  (fits s t -> fst (copy_time_series_table source target start_time end_time tags Succeeds w) = true)
  /\ (~ fits s t -> forall e,
       copy_time_series_table source target start_time end_time tags e w = (false, w)).
Proof. exact copy_checks. Qed.
Print Assumptions c51_copy_checks.

(** All data points of the copied segments are within the interval. *)
Theorem c51_copied_points : forall start_time end_time tags field s points,
  in_interval start_time end_time (Segment_row tags field s) = true -> covers s points ->
  valid_timestamps (map fst points) ->
  Forall (fun p => (forall t, start_time = Some t -> t <= fst p)
                   /\ (forall t, end_time = Some t -> fst p <= t)) points.
Proof. exact copied_points. Qed.
Print Assumptions c51_copied_points.

(** Data points within the interval are not copied if their segment is not within it. *)
Theorem c51_part_not_copied_refuted :
  let points := combine (every_second 20) (repeat (f32_of_Z 5) 20) in
  exists s start_time end_time,
  compress_univariate exact_platform Lossless (every_second 20) (repeat (f32_of_Z 5) 20)
    = Ok [s]
  /\ start_time <= 1700000005000000 <= end_time
  /\ In (1700000005000000, f32_of_Z 5) points
  /\ (let (ok, w) := copy_time_series_table home away (Some start_time) (Some end_time) []
         Succeeds (two_tables (one_field [Lossless; Lossless] [Segment_row [] 1 s])
                              (one_field [Lossless; Lossless] [])) in
      ok = true /\ rows_at w away = []).
Proof. exact part_not_copied. Qed.
Print Assumptions c51_part_not_copied_refuted.
