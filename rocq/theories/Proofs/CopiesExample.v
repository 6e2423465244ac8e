(** Moves and copies of small tables. *)
From Coq Require Import ZArith Reals String List Bool Lia Lra.
From Flocq Require Import Core IEEE754.Binary.
From Verif Require Import Model.Base Model.Float Model.ErrorBound Model.Segments Model.Multivariate
  Model.Copies Spec.ErrorBoundSpec Spec.TimestampsSpec Spec.SegmentsSpec Spec.CopiesSpec
  Proofs.FloatProofs Proofs.MacaqueVLossyProofs Proofs.RestoreWitnesses Proofs.CopiesProofs.
Import ListNotations.
Open Scope Z_scope.

Definition home : place := (1, "home"%string).
Definition away : place := (2, "away"%string).

Definition id_column : list column := [Column "id" (Other_type 1) false].
Definition two_tables (source target : table_state) : world :=
  fun p => if place_eqb p home then Some source else if place_eqb p away then Some target else None.

Definition plain_world : world :=
  two_tables (Table_state Normal_table id_column [Plain_row 1; Plain_row 2])
             (Table_state Normal_table id_column [Plain_row 3]).

(** Other clients write before the source is read, to the target while rows are moved, and to the
    source afterwards. *)
Definition quiet_events : list event :=
  [Other_write home [Plain_row 4]; Move_step Succeeds; Other_write away [Plain_row 5];
   Move_step Succeeds; Move_step Succeeds; Other_write home [Plain_row 6]].

Lemma quiet_example : home <> away /\ plain_world home <> None /\ plain_world away <> None
  /\ source_not_written home away plain_world quiet_events.
Proof.
  split; [discriminate|]. split; [discriminate|]. split; [discriminate|].
  intros before rows after E. unfold quiet_events in E.
  destruct before as [|e1 before]; [exact I|]. inversion E as [[E1 E']]. clear E. subst e1.
  destruct before as [|e2 before]; [discriminate E'|]. inversion E' as [[E2 E'']]. clear E'. subst e2.
  destruct before as [|e3 before]; [discriminate E''|]. inversion E'' as [[E3 E']]. clear E''. subst e3.
  destruct before as [|e4 before]; [discriminate E'|]. inversion E' as [[E4 E'']]. clear E'. subst e4.
  destruct before as [|e5 before]; [discriminate E''|]. inversion E'' as [[E5 E']]. clear E''. subst e5.
  destruct before as [|e6 before]; [exact I|]. inversion E' as [[E6 E'']]. destruct before; discriminate E''.
Qed.

Lemma quiet_result : let (p, w) := run home away plain_world quiet_events in
  (p, rows_at w home, rows_at w away)
  = (Returned true, [Plain_row 6],
     [Plain_row 3; Plain_row 5; Plain_row 1; Plain_row 2; Plain_row 4]).
Proof. vm_compute. reflexivity. Qed.

(** ** A write while rows are moved *)
Definition loud_events : list event :=
  [Move_step Succeeds; Move_step Succeeds; Other_write home [Plain_row 4]; Move_step Succeeds].

Lemma loud_result : let (p, w) := run home away plain_world loud_events in
  p = Returned true /\ In (Plain_row 4) (written_by_others home loud_events)
  /\ ~ In (Plain_row 4) (rows_at w home) /\ ~ In (Plain_row 4) (rows_at w away).
Proof.
  cbv zeta. vm_compute. split; [reflexivity|]. split; [now left|]. split; [tauto|].
  intros [H|[H|[H|[]]]]; discriminate H.
Qed.

(** ** Truncating fails *)
Lemma duplicated_result :
  let (p, w) := run home away plain_world [Move_step Succeeds; Move_step Succeeds; Move_step Fails] in
  (p, rows_at w home, rows_at w away)
  = (Returned false, [Plain_row 1; Plain_row 2], [Plain_row 3; Plain_row 1; Plain_row 2]).
Proof. vm_compute. reflexivity. Qed.

(** ** A table without loss *)
Definition lossy_values : list f32 := map f32_of_Z [1; 2; 1; 2; 1; 2; 1; 2; 1; 2].

Definition one_field (bounds : list error_bound) (rows : list record) : table_state :=
  Table_state (Series_table bounds)
    [Column "time" Time_type false; Column "pressure" Field_type false] rows.
Definition lossy_world (s : segment) : world :=
  two_tables (one_field [Lossless; Absolute (f32_of_Z 1)] [Segment_row [] 1 s])
             (one_field [Lossless; Lossless] []).

Definition all_steps : list event := [Move_step Succeeds; Move_step Succeeds; Move_step Succeeds].

Lemma lossy_moved : exists ts vs s ts' out,
  compress_univariate exact_platform (Absolute (f32_of_Z 1)) ts vs = Ok [s]
  /\ grid exact_platform s = Ok (ts', out)
  /\ (let (p, w) := run home away (lossy_world s) all_steps in
      p = Returned true /\ w away = Some (one_field [Lossless; Lossless] [Segment_row [] 1 s]))
  /\ forall slack, ~ Forall2 (within_bound slack Lossless) vs out.
Proof.
  assert (H : restored_as exact_platform (Absolute (f32_of_Z 1)) (every_second 10) lossy_values
    (fun out => is_finite 24 128 (nth 0 out f32_zero) && negb (f32_eq (f32_of_Z 1) (nth 0 out f32_zero))) = true)
    by (vm_compute; reflexivity).
  apply restored_as_inv in H. destruct H as (s & ts' & out & E1 & E2 & E3).
  exists (every_second 10), lossy_values, s, ts', out. split; [exact E1|]. split; [exact E2|].
  split; [split; reflexivity|]. intros slack HF. clear E1 E2.
  pose proof (RestoreWitnesses.forall2_nth _ _ _ _ _ 0 f32_zero f32_zero HF
                ltac:(cbn [lossy_values length map]; lia)) as Hw. clear HF.
  change (nth 0 lossy_values f32_zero) with (f32_of_Z 1) in Hw.
  apply andb_true_iff in E3. destruct E3 as [E3 E4]. apply negb_true_iff in E4.
  destruct Hw as [[(H1 & H2 & H3)|[[_ H]|[H _]]]|(_ & _ & [])]; try discriminate H.
  apply (f32_eq_iff _ _ H1 H2) in H3. congruence.
Qed.

(** ** Part of a table *)
Lemma part_not_copied :
  let points := combine (every_second 20) (repeat (f32_of_Z 5) 20) in
  exists s start_time end_time,
  compress_univariate exact_platform Lossless (every_second 20) (repeat (f32_of_Z 5) 20) = Ok [s]
  /\ start_time <= 1700000005000000 <= end_time
  /\ In (1700000005000000, f32_of_Z 5) points
  /\ (let (ok, w) := copy_time_series_table home away (Some start_time) (Some end_time) []
         Succeeds (two_tables (one_field [Lossless; Lossless] [Segment_row [] 1 s])
                              (one_field [Lossless; Lossless] [])) in
      ok = true /\ rows_at w away = []).
Proof.
  cbv zeta.
  assert (H : match compress_univariate exact_platform Lossless (every_second 20) (repeat (f32_of_Z 5) 20) with
              | Ok [s] => sg_start_time s =? 1700000000000000 | _ => false end = true) by (vm_compute; reflexivity).
  destruct (compress_univariate exact_platform Lossless (every_second 20) (repeat (f32_of_Z 5) 20))
    as [[|s [|s' l]]| |] eqn:E; try discriminate H.
  exists s, 1700000001000000, 1700000030000000. split; [reflexivity|]. split; [lia|]. split.
  { apply (nth_error_In _ 5). reflexivity. }
  apply Z.eqb_eq in H. unfold copy_time_series_table, two_tables. rewrite place_eqb_refl.
  change (place_eqb away home) with false. rewrite place_eqb_refl.
  cbv beta iota. unfold one_field at 1 2. cbn [t_kind t_schema t_rows one_field schemas_are_compatible c_type c_nullable type_eqb negb andb filter in_interval].
  rewrite H. split; reflexivity.
Qed.

(** ** Names of fields *)
Definition two_fields (a b : string) (rows : list record) : table_state :=
  Table_state (Series_table [Lossless; Lossless; Lossless])
    [Column "time" Time_type false; Column a Field_type false; Column b Field_type false] rows.
Lemma fields_exchanged : forall s,
  let (p, w) := run home away (two_tables (two_fields "pressure" "temperature" [Segment_row [] 1 s])
                                          (two_fields "temperature" "pressure" [])) all_steps in
  p = Returned true
  /\ w away = Some (two_fields "temperature" "pressure" [Segment_row [] 1 s]).
Proof. intros s. split; reflexivity. Qed.
