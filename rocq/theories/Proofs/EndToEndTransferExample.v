(** Examples for queries of the edge node and of the cloud node. *)
From Coq Require Import ZArith Reals Bool String List Permutation Lia.
From Verif Require Import Model.Base Model.Float Model.ErrorBound Model.Segments
  Model.Filters Model.Aggregates Model.Streams Model.Table Model.Scan Model.DataSource Model.EndToEnd
  Spec.FiltersSpec Spec.StreamsSpec Spec.TableSpec Spec.ScanSpec Spec.EndToEndSpec Spec.EndToEndTransferSpec
  Proofs.MacaqueVLossyProofs Proofs.QueryExample Proofs.EndToEndExample Proofs.EndToEndOneFieldExample.
From Verif Require Model.Transfer Spec.TransferSpec Proofs.TransferExamples.
Import ListNotations.
Import Transfer.
Open Scope nat_scope.
Open Scope string_scope.
Open Scope list_scope.

(** Row 10 * k + i is segment number i of the field in column k. *)
Definition meter_row (z : Z) : stored_segment :=
  nth (Z.to_nat (z mod 10)) (segments_of meters_state (Z.to_nat (z / 10)))
    (Stored [] (Segment 0 0 0 [] (f32_of_Z 0) (f32_of_Z 0) [] [])).
Definition of_y (z : Z) : bool := (z / 10 =? 3)%Z.
Definition folder (rows : list Z) : list (file stored_segment) :=
  map (fun z => File z [meter_row z]) (filter of_y rows).
(** The segments are read in the opposite order. *)
Definition folder_streams (rows : list Z) (column : nat) : stream (list stored_segment) :=
  if Nat.eqb column 3 then map (fun z => Batch [meter_row z]) (rev (filter of_y rows)) else [].

Lemma in_meter_folder rows : in_folder meter_row of_y rows (folder rows).
Proof.
  unfold in_folder, folder. induction (filter of_y rows) as [|z l IH]; [constructor|].
  cbn [map flat_map segments_in app]. constructor. exact IH.
Qed.
Lemma meter_streams_read rows : reads_but (fun _ => False) (folder rows) (folder_streams rows 3)
  /\ fine (folder_streams rows 3).
Proof.
  unfold reads_but, folder, folder_streams. cbn [Nat.eqb]. generalize (filter of_y rows). intros l. split.
  - exists []. split; [|intros x []]. rewrite app_nil_r.
    assert (H : forall k, concat (batches_of (map (fun z => Batch [meter_row z]) k)) = map meter_row k).
    { intros k. induction k as [|z k IH]; [reflexivity|]. unfold batches_of in *. cbn [map flat_map concat app]. rewrite IH. reflexivity. }
    rewrite H, <- (Permutation_rev l). clear H. induction l as [|z l IH]; [constructor|].
    cbn [map flat_map segments_in app]. constructor. exact IH.
  - unfold fine. induction (rev l) as [|z k IH]; [reflexivity|]. exact IH.
Qed.

(** The first two buffers are transferred, and the third one is saved later. *)
Definition meter_moves : list event :=
  [Save 0 "meters" [20; 30]%Z 60; Acquire 0; Go 0 true; Go 0 true; Go 0 true; Go 0 true;
   Save 1 "meters" [21; 31]%Z 50; Acquire 1; Go 1 true; Go 1 true; Go 1 true;
   Go 1 true; Go 1 true; Go 1 true; Go 1 true; Go 1 true; Go 1 true;
   Save 0 "meters" [22; 32]%Z 70; Acquire 0; Go 0 true; Go 0 true; Go 0 true].
(** The second buffer is saved between the scan and the truncation of a transfer. *)
Definition losing_moves : list event :=
  [Save 0 "meters" [20; 30]%Z 120; Acquire 0; Go 0 true; Go 0 true; Go 0 true; Go 0 true;
   Go 0 true; Go 0 true;
   Save 1 "meters" [21; 31]%Z 50;
   Go 0 true; Go 0 true; Go 0 true; Go 0 true;
   Save 0 "meters" [22; 32]%Z 70].
(** A crash between the write to the remote table and the truncation. *)
Definition repeating_moves : list event :=
  [Save 0 "meters" [20; 30]%Z 120; Acquire 0; Go 0 true; Go 0 true; Go 0 true; Go 0 true;
   Go 0 true; Go 0 true; Go 0 true;
   Crash [("meters", 120%Z)] ["meters"]; Go 0 true; Go 0 true; Go 0 true; Go 0 true; Go 0 true;
   Go 0 true; Go 0 true;
   Save 0 "meters" [21; 31; 22; 32]%Z 70].

Notation after_moves moves := (TransferExamples.state_of (run moves (start 2 (Some 100%Z)))).

Lemma meter_segments column l : column = 3 ->
  all_segments exact_platform meters_table 1 column (committed_to "meters" meters_state) = Ok l ->
  map meter_row [30; 31; 32]%Z = l.
Proof.
  intros -> H.
  assert (E : segments_of meters_state 3 = l) by (unfold segments_of; cbn [Nat.sub]; rewrite H; reflexivity).
  unfold meter_row. cbn [map].
  change (Z.to_nat (30 / 10)) with 3. change (Z.to_nat (31 / 10)) with 3. change (Z.to_nat (32 / 10)) with 3.
  change (Z.to_nat (30 mod 10)) with 0. change (Z.to_nat (31 mod 10)) with 1. change (Z.to_nat (32 mod 10)) with 2.
  rewrite E.
  assert (Hl : length l = 3) by (rewrite <- E; vm_compute; reflexivity).
  destruct l as [|a [|b [|c [|d k]]]]; cbn [length] in Hl; try lia. reflexivity.
Qed.

Lemma meters_transferred : transferred "meters" 2 (Some 100%Z) meter_moves (after_moves meter_moves).
Proof.
  constructor.
  - apply TransferExamples.went_ok. vm_compute. reflexivity.
  - apply (TransferExamples.alongb_ok _ _ TransferExamples.calm_saves_ok). vm_compute. reflexivity.
  - apply (TransferExamples.alongb_ok _ _ TransferExamples.single_transfers_ok). vm_compute. reflexivity.
  - apply (TransferExamples.alongb_ok _ _ TransferExamples.truncations_ok). vm_compute. reflexivity.
  - intros a Ha. apply TransferExamples.writtenb_ok. revert Ha. apply TransferExamples.none_of. vm_compute. reflexivity.
Qed.

(** The timestamps that [SELECT ts, y FROM meters] returns if a data folder has these rows. *)
Definition y_times (rows : list Z) (times : list Z) : Prop :=
  exists plan bs, scan any_indices meters_table (Some [0; 3]) = Ok plan
    /\ consume (query_poll products (grid_stored exact_platform) None (tag_names meters_table) plan) 9
         (query_stream plan None 8 (folder_streams rows)) = Ok (bs, Done)
    /\ nth 0 (all_columns 2 bs) [] = map (fun t => Time (second t)) times.

Ltac y_query := do 2 eexists; split; [vm_compute; reflexivity|]; split; [vm_compute; reflexivity|]; vm_compute; reflexivity.

Lemma transfer_example :
  let m := meters_table in
  let after := after_moves meter_moves in
  let local := x_local after "meters" in
  let remote := x_remote after "meters" in
  transferred "meters" 2 (Some 100%Z) meter_moves after
  /\ local = [22; 32]%Z /\ remote = [20; 30; 21; 31]%Z
  /\ field_at m 1 3 "y" (Absolute (f32_of_Z 1))
  /\ selects m (columns_of m (Some [0; 3])) /\ reads_one_field m (columns_of m (Some [0; 3])) "y"
  /\ (forall l, all_segments exact_platform m 1 3 (committed_to "meters" meters_state) = Ok l ->
        Permutation (map meter_row (filter of_y (TransferSpec.saved "meters" meter_moves))) l)
  /\ in_folder meter_row of_y local (folder local) /\ in_folder meter_row of_y remote (folder remote)
  /\ (reads_but (fun _ => False) (folder local) (folder_streams local 3) /\ fine (folder_streams local 3))
  /\ (reads_but (fun _ => False) (folder remote) (folder_streams remote 3)
      /\ fine (folder_streams remote 3))
  /\ y_times local [11%Z] /\ y_times remote [1; 1; 2; 3; 4; 5; 6; 7; 8; 9; 10]%Z.
Proof.
  cbv zeta. split; [exact meters_transferred|]. split; [vm_compute; reflexivity|]. split; [vm_compute; reflexivity|].
  split; [constructor; reflexivity|]. split; [exact y_selects|]. split; [exact y_only|].
  split. { intros l H. change (filter of_y (TransferSpec.saved "meters" meter_moves)) with [30; 31; 32]%Z.
           rewrite (meter_segments 3 l eq_refl H). reflexivity. }
  split; [apply in_meter_folder|]. split; [apply in_meter_folder|].
  split; [apply meter_streams_read|]. split; [apply meter_streams_read|].
  change (x_local (after_moves meter_moves) "meters") with [22; 32]%Z.
  change (x_remote (after_moves meter_moves) "meters") with [20; 30; 21; 31]%Z.
  split; y_query.
Qed.

Lemma lost_example :
  let after := after_moves losing_moves in
  run losing_moves (start 2 (Some 100%Z)) = Went after
  /\ TransferSpec.along TransferSpec.one_transfer_at_a_time losing_moves (start 2 (Some 100%Z))
  /\ TransferSpec.along TransferSpec.no_failure losing_moves (start 2 (Some 100%Z))
  /\ (forall l, all_segments exact_platform meters_table 1 3 (committed_to "meters" meters_state) = Ok l ->
        Permutation (map meter_row (filter of_y (TransferSpec.saved "meters" losing_moves))) l)
  /\ length (sent_to "meters" meters_state) = 12
  /\ y_times (x_local after "meters") [11%Z]
  /\ y_times (x_remote after "meters") [1; 2; 3; 4; 5; 6; 7; 8; 9; 10]%Z.
Proof.
  cbv zeta. split; [apply TransferExamples.went_ok; vm_compute; reflexivity|].
  split; [apply (TransferExamples.alongb_ok _ _ TransferExamples.single_transfers_ok); vm_compute; reflexivity|].
  split; [apply (TransferExamples.alongb_ok _ _ TransferExamples.successes_ok); vm_compute; reflexivity|].
  split. { intros l H. change (filter of_y (TransferSpec.saved "meters" losing_moves)) with [30; 31; 32]%Z.
           rewrite (meter_segments 3 l eq_refl H). reflexivity. }
  split; [rewrite meters_sent; reflexivity|].
  change (x_local (after_moves losing_moves) "meters") with [22; 32]%Z.
  change (x_remote (after_moves losing_moves) "meters") with [20; 30]%Z.
  split; y_query.
Qed.

Lemma repeated_example :
  let after := after_moves repeating_moves in
  run repeating_moves (start 2 (Some 100%Z)) = Went after
  /\ TransferSpec.along TransferSpec.no_save_while_moving repeating_moves (start 2 (Some 100%Z))
  /\ TransferSpec.along TransferSpec.one_transfer_at_a_time repeating_moves (start 2 (Some 100%Z))
  /\ TransferSpec.along TransferSpec.no_failure repeating_moves (start 2 (Some 100%Z))
  /\ (forall l, all_segments exact_platform meters_table 1 3 (committed_to "meters" meters_state) = Ok l ->
        Permutation (map meter_row (filter of_y (TransferSpec.saved "meters" repeating_moves))) l)
  /\ length (sent_to "meters" meters_state) = 12
  /\ y_times (x_local after "meters") [11; 1]%Z
  /\ y_times (x_remote after "meters") [1; 2; 3; 4; 5; 6; 7; 8; 9; 10; 1; 2; 3; 4; 5; 6; 7; 8; 9; 10]%Z.
Proof.
  cbv zeta. split; [apply TransferExamples.went_ok; vm_compute; reflexivity|].
  split; [apply (TransferExamples.alongb_ok _ _ TransferExamples.calm_saves_ok); vm_compute; reflexivity|].
  split; [apply (TransferExamples.alongb_ok _ _ TransferExamples.single_transfers_ok); vm_compute; reflexivity|].
  split; [apply (TransferExamples.alongb_ok _ _ TransferExamples.successes_ok); vm_compute; reflexivity|].
  split. { intros l H. change (filter of_y (TransferSpec.saved "meters" repeating_moves)) with [30; 31; 32]%Z.
           rewrite (meter_segments 3 l eq_refl H). reflexivity. }
  split; [rewrite meters_sent; reflexivity|].
  change (x_local (after_moves repeating_moves) "meters") with [21; 31; 22; 32]%Z.
  change (x_remote (after_moves repeating_moves) "meters") with [20; 30; 20; 30]%Z.
  split; y_query.
Qed.

(** [WHERE ts >= ...] at the two nodes: a segment that ends before is not read. *)
Definition since_folder (rows : list Z) (t : Z) (column : nat) : stream (list stored_segment) :=
  if Nat.eqb column 3
  then map (fun z => Batch [meter_row z]) (filter (fun z => ends_since t (meter_row z)) (filter of_y rows))
  else [].

Lemma meter_batches k : concat (batches_of (map (fun z => Batch [meter_row z]) k)) = map meter_row k.
Proof. induction k as [|z k IH]; [reflexivity|]. unfold batches_of in *. cbn [map flat_map concat app]. rewrite IH. reflexivity. Qed.

Lemma since_folder_reads rows t p :
  p = Some (Binary (Column "end_time") GtEq (Literal (Time (second t)))) ->
  reads_but (fun x => ~ passes products (segment_times x) p) (folder rows) (since_folder rows t 3)
  /\ fine (since_folder rows t 3).
Proof.
  intros ->. unfold reads_but, folder, since_folder. cbn [Nat.eqb]. generalize (filter of_y rows). intros l. split.
  - exists (map meter_row (filter (fun z => negb (ends_since t (meter_row z))) l)). split.
    + rewrite meter_batches, <- map_app, filter_split. clear. induction l as [|z l IH]; [constructor|].
      cbn [map flat_map segments_in app]. constructor. exact IH.
    + intros x H. apply in_map_iff in H. destruct H as (z & <- & H). apply filter_In in H. destruct H as [_ H].
      generalize dependent (meter_row z). intros x H C.
      unfold ends_since in H. revert H C. generalize (second t). intros T H C.
      unfold passes, satisfies, evaluate, segment_times in C. cbn [String.eqb Ascii.eqb Bool.eqb] in C.
      unfold operate, compare_times in C. injection C as C. rewrite C in H. discriminate H.
  - unfold fine. induction (filter (fun z => ends_since t (meter_row z)) l) as [|z k IH]; [reflexivity|]. exact IH.
Qed.

Definition y_since (rows : list Z) (t : Z) (times : list Z) : Prop :=
  exists plan bs, scan any_indices meters_table (Some [0; 3]) = Ok plan
    /\ consume (query_poll products (grid_stored exact_platform) (since_points t) (tag_names meters_table) plan) 9
         (query_stream plan None 8 (since_folder rows t)) = Ok (bs, Done)
    /\ nth 0 (all_columns 2 bs) [] = map (fun t => Time (second t)) times.

Lemma transfer_filter_example :
  let after := after_moves meter_moves in
  let local := x_local after "meters" in
  let remote := x_remote after "meters" in
  let p := Some (Binary (Column "end_time") GtEq (Literal (Time (second 10)))) in
  (reads_but (fun x => ~ passes products (segment_times x) p) (folder local) (since_folder local 10 3)
   /\ fine (since_folder local 10 3))
  /\ (reads_but (fun x => ~ passes products (segment_times x) p) (folder remote) (since_folder remote 10 3)
      /\ fine (since_folder remote 10 3))
  /\ y_since local 10 [11%Z] /\ y_since remote 10 [10%Z].
Proof.
  cbv zeta. split; [apply since_folder_reads; reflexivity|]. split; [apply since_folder_reads; reflexivity|].
  change (x_local (after_moves meter_moves) "meters") with [22; 32]%Z.
  change (x_remote (after_moves meter_moves) "meters") with [20; 30; 21; 31]%Z.
  split; y_query.
Qed.

Lemma transfer_count_example :
  let after := after_moves meter_moves in
  let local := flat_map segments_in (folder (x_local after "meters")) in
  let remote := flat_map segments_in (folder (x_remote after "meters")) in
  (Z.of_nat (length (sent_to "meters" meters_state)) < 2 ^ 63)%Z
  /\ model_count 0 (map st_segment local) = Ok 1%Z /\ model_count 0 (map st_segment remote) = Ok 11%Z.
Proof.
  cbv zeta. split; [rewrite meters_sent; reflexivity|]. split; vm_compute; reflexivity.
Qed.
