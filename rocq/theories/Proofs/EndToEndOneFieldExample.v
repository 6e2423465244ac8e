(** Examples for queries of one field with filters and limits. *)
From Coq Require Import ZArith Reals Bool String List Permutation Lia.
From Verif Require Import Model.Base Model.Float Model.ErrorBound Model.Segments
  Model.Filters Model.Streams Model.Table Model.Scan Model.DataSource Model.EndToEnd
  Spec.PlatformSpec Spec.ErrorBoundSpec Spec.FiltersSpec
  Spec.SegmentsSpec Spec.GridSpec Spec.StreamsSpec Spec.TableSpec Spec.ScanSpec Spec.EndToEndSpec
  Proofs.MacaqueVLossyProofs Proofs.DefinitionExample Proofs.JoinErrorProofs Proofs.QueryExample Proofs.EndToEndExample.
From Verif Require Model.Pipeline Spec.PipelineSpec Proofs.PipelineExamples Proofs.LimitProofs.
Import ListNotations.
Open Scope nat_scope.
Open Scope string_scope.
Open Scope list_scope.

(** [WHERE ts >= ...]. *)
Definition since (t : Z) : list expr := [Binary (Column "ts") GtEq (Literal (Time (second t)))].
Definition item_values (x : item) : row :=
  fun name => if String.eqb name "ts" then Some (Time (time_of x)) else None.
Definition segment_times (x : stored_segment) : row :=
  fun name => if String.eqb name "start_time" then Some (Time (sg_start_time (st_segment x)))
              else if String.eqb name "end_time" then Some (Time (sg_end_time (st_segment x))) else None.
Definition point_times (q : Streams.point) : row :=
  fun name => if String.eqb name "timestamp" then Some (Time (p_time q)) else None.
Definition since_points (t : Z) : option (Streams.point -> bool) :=
  Some (fun q => second t <=? p_time q)%Z.
Definition ends_since (t : Z) (x : stored_segment) : bool :=
  (second t <=? sg_end_time (st_segment x))%Z.
(** Each segment that passes is in a batch and there is a pause after the first one. *)
Definition streams_since (files : nat -> list (file stored_segment)) (t : Z) (column : nat)
  : stream (list stored_segment) :=
  match map (fun x => Batch [x]) (filter (ends_since t) (read_segments by_insertion None (files column))) with
  | [] => []
  | b :: l => b :: Pending :: l
  end.
Definition limited_streams (files : nat -> list (file stored_segment)) (limit column : nat)
  : stream (list stored_segment) :=
  [Batch (read_segments by_insertion (Some limit) (files column))].

Lemma meters_seen : seen_as meters_table item_values segment_times point_times.
Proof.
  constructor.
  - intros x name H. unfold item_values. destruct (String.eqb name "ts") eqn:E; [reflexivity|].
    exfalso. apply String.eqb_neq in E. cbn [filter_schema meters_table schema meters_columns map fst snd field_with_name] in H.
    repeat (match type of H with context [String.eqb ?a ?b] => destruct (String.eqb_spec a b); [congruence|] end).
    discriminate H.
  - intros x. split; reflexivity.
  - intros q. reflexivity.
Qed.

Lemma filter_split {A} (f : A -> bool) l : Permutation (filter f l ++ filter (fun x => negb (f x)) l) l.
Proof.
  induction l as [|x l IH]; [constructor|]. cbn [filter]. destruct (f x); cbn [negb app].
  - constructor. exact IH.
  - rewrite <- Permutation_middle. constructor. exact IH.
Qed.

Lemma since_stream files t column :
  concat (batches_of (streams_since files t column))
  = filter (ends_since t) (read_segments by_insertion None (files column)).
Proof.
  unfold streams_since. set (l := filter _ _).
  assert (H : forall l : list stored_segment, concat (batches_of (map (fun x => Batch [x]) l)) = l).
  { intros k. induction k as [|x k IH]; [reflexivity|]. unfold batches_of in *.
    cbn [map flat_map app concat]. rewrite IH. reflexivity. }
  rewrite <- (H l) at 2. destruct l; reflexivity.
Qed.

Lemma sorted_files_perm : forall l, Permutation (by_insertion l) l.
Proof. intros l. apply by_insertion_sorts. Qed.

Lemma since_reads files t column p :
  p = Some (Binary (Column "end_time") GtEq (Literal (Time (second t)))) ->
  reads_but (fun x => ~ passes products (segment_times x) p) (files column) (streams_since files t column).
Proof.
  intros ->. exists (filter (fun x => negb (ends_since t x)) (read_segments by_insertion None (files column))).
  split.
  - rewrite since_stream, filter_split. unfold read_segments.
    set (all := flat_map segments_in (sort_files (files column))).
    assert (H : Permutation all (flat_map segments_in (files column))).
    { apply Permutation_flat_map, LimitProofs.sort_files_permutation. }
    destruct (files column) as [|f [|g k]]; [reflexivity|exact H|]. rewrite sorted_files_perm. exact H.
  - intros x H. apply filter_In in H. destruct H as [_ H]. intros C.
    unfold ends_since in H. revert H C. generalize (second t). intros T H C.
    unfold passes, satisfies, evaluate, segment_times in C. cbn [String.eqb Ascii.eqb Bool.eqb] in C.
    unfold operate, compare_times in C. injection C as C. rewrite C in H. discriminate H.
Qed.

Lemma since_chosen t q : chosen (since_points t) q
  <-> passes products (point_times q) (Some (Binary (Column "timestamp") GtEq (Literal (Time (second t))))).
Proof.
  unfold chosen, since_points. generalize (second t). intros T.
  unfold passes, satisfies, evaluate, point_times. cbn [String.eqb Ascii.eqb Bool.eqb].
  unfold operate, compare_times. split; intros H; [rewrite H; reflexivity|injection H as H; exact H].
Qed.

Lemma y_selects : selects meters_table (columns_of meters_table (Some [0; 3])).
Proof.
  split; [repeat constructor; cbn [In]; lia|]. intros i Hi. cbn [columns_of In] in Hi.
  unfold meters_table. cbn [query_schema length meters_columns].
  repeat (destruct Hi as [<-|Hi]; [lia|]). contradiction Hi.
Qed.
Lemma y_only : reads_one_field meters_table (columns_of meters_table (Some [0; 3])) "y".
Proof.
  split.
  - exists 3. split; [split; [reflexivity|left; right; left; reflexivity]|]. exists "y". reflexivity.
  - intros i [_ Hi] [name Ht]. destruct Hi as [Hi|(j & g & Hj & Hg & _)].
    + cbn [columns_of In] in Hi. destruct Hi as [<-|[<-|[]]]; [discriminate Ht|reflexivity].
    + exfalso. cbn [columns_of In] in Hj. destruct Hj as [<-|[<-|[]]]; discriminate Hg.
Qed.

(** [SELECT ts, y FROM meters WHERE ts >= ...]: the segment of the other meter is not read, and one
    data point of the first of the two segments is returned. *)
Lemma since_query : exists p bs, scan any_indices meters_table (Some [0; 3]) = Ok p
  /\ consume (query_poll products (grid_stored exact_platform) (since_points 10) (tag_names meters_table) p) 9
       (query_stream p None 8 (streams_since meters_files 10)) = Ok (bs, Done)
  /\ all_columns 2 bs
     = [[Time (second 10); Time (second 11)]; [Value 1084437299; Value (bits 44)]].
Proof.
  eexists. eexists. split; [vm_compute; reflexivity|]. split; [vm_compute; reflexivity|]. vm_compute. reflexivity.
Qed.

(** [SELECT ts, y FROM meters LIMIT 1]: one of the three segments is read. *)
Lemma limit_query : exists p bs, scan any_indices meters_table (Some [0; 3]) = Ok p
  /\ consume (query_poll products (grid_stored exact_platform) None (tag_names meters_table) p) 9
       (query_stream p (Some 1) 8 (limited_streams late_files 1)) = Ok (bs, Done)
  /\ length (nth 0 (all_columns 2 bs) []) = 8.
Proof.
  eexists. eexists. split; [vm_compute; reflexivity|]. split; [vm_compute; reflexivity|]. vm_compute. reflexivity.
Qed.

Lemma since_example :
  let m := meters_table in
  let columns := columns_of m (Some [0; 3]) in
  let filters := since 10 in
  let p := Some (Binary (Column "end_time") GtEq (Literal (Time (second 10)))) in
  let g := Some (Binary (Column "timestamp") GtEq (Literal (Time (second 10)))) in
  field_at m 1 3 "y" (Absolute (f32_of_Z 1))
  /\ enumerates_indices any_indices /\ selects m columns /\ reads_one_field m columns "y"
  /\ fine (streams_since meters_files 10 3)
  /\ (forall f, In f filters -> time_filter (filter_schema m) f = true
        /\ supported (filter_schema m) f = true)
  /\ rewrite_and_combine_filters (filter_schema m) filters = Ok (p, g)
  /\ seen_as m item_values segment_times point_times
  /\ (forall q, chosen (since_points 10) q <-> passes products (point_times q) g)
  /\ reads_but (fun x => ~ passes products (segment_times x) p) (meters_files 3)
       (streams_since meters_files 10 3)
  /\ (forall r, computable products m columns r)
  /\ exists plan bs, scan any_indices m (Some [0; 3]) = Ok plan
       /\ consume (query_poll products (grid_stored exact_platform) (since_points 10) (tag_names m) plan)
            9 (query_stream plan None 8 (streams_since meters_files 10)) = Ok (bs, Done)
       /\ all_columns 2 bs
          = [[Time (second 10); Time (second 11)]; [Value 1084437299; Value (bits 44)]].
Proof.
  cbv zeta. split; [constructor; reflexivity|]. split; [exact any_indices_enumerates|].
  split; [exact y_selects|]. split; [exact y_only|].
  split. { vm_compute. reflexivity. }
  split. { intros f [<-|[]]. split; reflexivity. }
  split; [reflexivity|]. split; [exact meters_seen|]. split; [exact (since_chosen 10)|].
  split; [apply since_reads; reflexivity|]. split; [exact (meters_computable _)|]. exact since_query.
Qed.

Lemma limited_example :
  let m := meters_table in
  let columns := columns_of m (Some [0; 3]) in
  (forall l, Permutation (by_insertion l) l)
  /\ concat (batches_of (limited_streams late_files 1 3)) = read_segments by_insertion (Some 1) (late_files 3)
  /\ length (flat_map segments_in (late_files 3)) = 3
  /\ fine (limited_streams late_files 1 3)
  /\ exists plan bs, scan any_indices m (Some [0; 3]) = Ok plan
       /\ consume (query_poll products (grid_stored exact_platform) None (tag_names m) plan) 9
            (query_stream plan (Some 1) 8 (limited_streams late_files 1)) = Ok (bs, Done)
       /\ length (nth 0 (all_columns 2 bs) []) = 8.
Proof.
  cbv zeta. split; [exact sorted_files_perm|].
  split; [unfold limited_streams, batches_of; cbn [flat_map concat app]; apply app_nil_r|].
  split; [vm_compute; reflexivity|]. split; [vm_compute; reflexivity|]. exact limit_query.
Qed.

(** * Streams of one field *)
(** A batch with a segment without data points that are selected, and one with less segments. *)
Definition uneven : stream (list (list Streams.point)) :=
  [Batch [[a_at 1]; [a_at 2; a_at 3]]; Pending; Batch [[a_at 4]]].
Lemma uneven_example : fine uneven /\ ~ full 4 (batches_of uneven)
  /\ order_fits [Field; Timestamp] [] 1
  /\ exists bs, consume (join_poll (grid_poll id_grid (Some from_two)) [Field; Timestamp] []) 16
       (join_stream_new [grid_stream_new None uneven 4]) = Ok (bs, Done)
     /\ all_columns 2 bs = [map Value_cell [2; 3; 4]; map Time_cell [2; 3; 4]]%Z.
Proof.
  split; [reflexivity|]. split. { cbn. lia. }
  split. { split; [discriminate|]. split; [cbn; lia|]. intros name [H|[H|[]]]; discriminate H. }
  eexists. split; reflexivity.
Qed.

Definition from_hundred (p : Streams.point) : bool := (100 <=? p_time p)%Z.
Definition torque_streams (column : nat) : stream (list (list Streams.point)) :=
  map (fun b => match b with [] => Pending | _ => Batch [map (point_of turbine_table column) b] end)
    [[turbine_row 50 1 2; turbine_row 100 3 5]; []; [turbine_row 200 4 7]].
Lemma torque_selects : selects turbine_table [5; 1].
Proof.
  split.
  - repeat constructor; cbn; intros H; repeat destruct H as [H|H]; try discriminate; contradiction.
  - intros i H. change (length (query_schema turbine_table)) with 6. cbn in H.
    repeat destruct H as [H|H]; try contradiction; lia.
Qed.
Lemma torque_example :
  let m := turbine_table in
  valid_table m /\ tags_named m /\ enumerates_indices any_indices /\ selects m [5; 1]
  /\ nth_error (schema m) 4 = Some ("torque", Float32) /\ reads_one_field m [5; 1] "torque"
  /\ fine (torque_streams 4)
  /\ points_of id_grid (Some from_hundred) (torque_streams 4) = map (point_of m 4) turbine_rows
  /\ (forall r, computable products m [5; 1] r)
  /\ exists p bs, scan any_indices m (Some [5; 1]) = Ok p
       /\ consume (query_poll products id_grid (Some from_hundred) (tag_names m) p) 9
            (query_stream p None 8 torque_streams) = Ok (bs, Done)
       /\ all_columns 2 bs = [[Value 5; Value 7]; [Text "north"; Text "north"]].
Proof.
  cbv zeta. split; [exact turbine_valid|]. split; [exact turbine_tags|]. split; [exact any_indices_enumerates|].
  split; [exact torque_selects|]. split; [reflexivity|].
  split.
  { split.
    - exists 5. split; [split; [reflexivity|left; now left]|now exists "torque"].
    - intros i [_ Hi] [name Ht]. destruct Hi as [Hi|(j & g & Hj & Hg & _)].
      + destruct Hi as [<-|[<-|[]]]; [reflexivity|discriminate Ht].
      + exfalso. destruct Hj as [<-|[<-|[]]]; discriminate Hg. }
  split; [reflexivity|]. split; [reflexivity|]. split; [exact (turbine_computable _)|].
  unfold turbine_table. set (five := f32_of_Z 5). clearbody five.
  eexists. eexists. split; [reflexivity|]. split; reflexivity.
Qed.
