(** Readings of two meters are inserted, flushed and queried. *)
From Coq Require Import ZArith Reals Bool String List Permutation Sorted Lia Lra OrderedTypeEx.
From Flocq Require Import Core.
From Verif Require Import Model.Base Model.Float Model.ErrorBound Model.Segments
  Model.Filters Model.Streams Model.Table Model.Scan Model.DataSource Model.EndToEnd
  Spec.PlatformSpec Spec.ErrorBoundSpec Spec.PmcSpec Spec.SwingSpec Spec.MacaqueVSpec Spec.FiltersSpec
  Spec.SegmentsSpec Spec.GridSpec Spec.StreamsSpec Spec.TableSpec Spec.ScanSpec Spec.EndToEndSpec
  Proofs.MacaqueVLossyProofs Proofs.ErrorBoundProofs Proofs.MacaqueVProofs Proofs.RestoreWitnesses Proofs.SwingBound Proofs.SwingStored Proofs.StoredDefinitionProofs Proofs.DefinitionExample Proofs.QueryExample.
From Verif Require Model.Pipeline Spec.PipelineSpec Proofs.PipelineExamples.
Import ListNotations.
Open Scope nat_scope.
Open Scope string_scope.
Open Scope list_scope.

(** * An order of lists of tags *)
Fixpoint tags_le (a b : list string) : Prop :=
  match a, b with
  | [], _ => True
  | _ :: _, [] => False
  | x :: a, y :: b => String_as_OT.lt x y \/ (x = y /\ tags_le a b)
  end.

Lemma lt_irreflexive x : ~ String_as_OT.lt x x.
Proof. intros H. apply (String_as_OT.lt_not_eq _ _ H). reflexivity. Qed.

Lemma tags_le_total : total_order tags_le.
Proof.
  split; [|split; [|split]].
  - intros a. induction a as [|x a IH]; cbn [tags_le]; [exact I|]. right. split; [reflexivity|exact IH].
  - intros a. induction a as [|x a IH]; intros [|y b] H1 H2; cbn [tags_le] in *; try contradiction; [reflexivity|].
    destruct H1 as [H1|[-> H1]]; destruct H2 as [H2|[E H2]].
    + destruct (lt_irreflexive x). exact (String_as_OT.lt_trans _ _ _ H1 H2).
    + subst. destruct (lt_irreflexive x H1).
    + destruct (lt_irreflexive y H2).
    + f_equal. apply IH; assumption.
  - intros a. induction a as [|x a IH]; intros [|y b] [|z c] H1 H2; cbn [tags_le] in *; try contradiction; try exact I.
    destruct H1 as [H1|[-> H1]]; destruct H2 as [H2|[-> H2]].
    + left. exact (String_as_OT.lt_trans _ _ _ H1 H2).
    + left. exact H1.
    + left. exact H2.
    + right. split; [reflexivity|exact (IH _ _ H1 H2)].
  - intros a. induction a as [|x a IH]; intros [|y b]; cbn [tags_le]; try (left; exact I); try (right; exact I).
    destruct (String_as_OT.compare x y) as [H|H|H].
    + left. left. exact H.
    + rewrite H. destruct (IH b) as [K|K]; [left|right]; right; (split; [reflexivity|exact K]).
    + right. left. exact H.
Qed.

Fixpoint tags_leb (a b : list string) : bool :=
  match a, b with
  | [], _ => true
  | _ :: _, [] => false
  | x :: a, y :: b => match String.compare x y with Datatypes.Lt => true | Datatypes.Eq => tags_leb a b | Datatypes.Gt => false end
  end.

Lemma tags_leb_ok : forall a b, tags_leb a b = true -> tags_le a b.
Proof.
  induction a as [|x a IH]; intros [|y b] H; cbn [tags_leb tags_le] in *; try exact I; try discriminate H.
  destruct (String.compare x y) eqn:E; try discriminate H.
  - right. split; [apply String.compare_eq_iff; exact E|apply IH; exact H].
  - left. apply String_as_OT.cmp_lt. exact E.
Qed.
Lemma tags_leb_not : forall a b, tags_leb a b = false -> tags_le b a /\ a <> b.
Proof.
  induction a as [|x a IH]; intros [|y b] H; cbn [tags_leb tags_le] in *; try discriminate H.
  - split; [exact I|discriminate].
  - destruct (String.compare x y) eqn:E; try discriminate H.
    + apply String.compare_eq_iff in E. subst. destruct (IH b H) as [H1 H2].
      split; [right; split; [reflexivity|exact H1]|]. intros X. injection X as X. exact (H2 X).
    + rewrite String.compare_antisym in E. destruct (String.compare y x) eqn:E'; try discriminate E.
      apply String_as_OT.cmp_lt in E'. split; [left; exact E'|]. intros X. injection X as -> _. exact (lt_irreflexive _ E').
Qed.

(** * Sorting by insertion *)
Definition no_laterb (x y : stored_segment) : bool :=
  if list_eq_dec string_dec (st_tags x) (st_tags y)
  then (sg_start_time (st_segment x) <=? sg_start_time (st_segment y))%Z
  else tags_leb (st_tags x) (st_tags y).
Fixpoint insert_segment (x : stored_segment) (l : list stored_segment) : list stored_segment :=
  match l with
  | [] => [x]
  | y :: l => if no_laterb x y then x :: y :: l else y :: insert_segment x l
  end.
Definition by_insertion (l : list stored_segment) : list stored_segment := fold_right insert_segment [] l.

Lemma no_laterb_ok x y : if no_laterb x y then starts_no_later tags_le x y else starts_no_later tags_le y x.
Proof.
  unfold no_laterb, starts_no_later. destruct (list_eq_dec string_dec (st_tags x) (st_tags y)) as [E|E].
  - destruct (Z.leb_spec (sg_start_time (st_segment x)) (sg_start_time (st_segment y))) as [H|H]; right;
      (split; [first [exact E|symmetry; exact E]|lia]).
  - destruct (tags_leb (st_tags x) (st_tags y)) eqn:H; left.
    + split; [apply tags_leb_ok; exact H|exact E].
    + destruct (tags_leb_not _ _ H) as [H1 _]. split; [exact H1|]. intros X. apply E. symmetry. exact X.
Qed.
Lemma starts_trans x y z : starts_no_later tags_le x y -> starts_no_later tags_le y z -> starts_no_later tags_le x z.
Proof.
  destruct tags_le_total as (_ & Hanti & Htrans & _).
  unfold starts_no_later. intros [[H1 H2]|[H1 H2]] [[H3 H4]|[H3 H4]].
  - left. split; [exact (Htrans _ _ _ H1 H3)|]. intros E. rewrite E in H1. apply H4. apply Hanti; assumption.
  - left. rewrite <- H3. split; assumption.
  - left. rewrite H1. split; assumption.
  - right. split; [congruence|lia].
Qed.
Lemma insert_perm x l : Permutation (insert_segment x l) (x :: l).
Proof.
  induction l as [|y l IH]; cbn [insert_segment]; [reflexivity|]. destruct (no_laterb x y); [reflexivity|].
  rewrite IH. apply perm_swap.
Qed.
Lemma by_insertion_sorts : sorts_segments tags_le by_insertion.
Proof.
  intros l. induction l as [|x l [IH1 IH2]]; cbn [by_insertion fold_right]; [split; constructor|].
  split; [rewrite insert_perm; constructor; exact IH1|].
  change (fold_right insert_segment [] l) with (by_insertion l).
  revert IH2. generalize (by_insertion l). clear. intros l Hs.
  induction Hs as [|y l Hs IH F]; cbn [insert_segment]; [repeat constructor|].
  pose proof (no_laterb_ok x y) as H. destruct (no_laterb x y).
  - constructor; [constructor; assumption|]. constructor; [exact H|].
    rewrite Forall_forall in *. intros z Hz. exact (starts_trans _ _ _ H (F z Hz)).
  - constructor; [exact IH|]. apply (Permutation_Forall (Permutation_sym (insert_perm x l))).
    constructor; [exact H|exact F].
Qed.

(** * The table *)
Definition meters_defs : list column_def :=
  [("ts", Timestamp_column); ("meter", Tag_column); ("x", Field_column (f32_of_Z 1) false);
   ("y", Field_column (f32_of_Z 1) false)].
Definition meters_columns : list column :=
  [("ts", Timestamp_us); ("meter", Utf8View); ("x", Float32); ("y", Float32)].
Definition meters_table : metadata :=
  Metadata "meters" 0 [2; 3] [1] [Lossless; Lossless; Absolute (f32_of_Z 1); Absolute (f32_of_Z 1)]
    [None; None; None; None] meters_columns meters_columns [0; 1; 2; 3]
    (base_compressed_schema ++ [("meter", Utf8View)]).

Lemma meters_created : create_table same_order "meters" meters_defs = Ok meters_table.
Proof.
  unfold create_table, meters_defs.
  assert (B2 : has_error_bound (f32_of_Z 1) = true) by (vm_compute; reflexivity).
  assert (B3 : try_new_absolute (f32_of_Z 1) = Ok (Absolute (f32_of_Z 1))).
  { unfold try_new_absolute.
    match goal with |- (if ?c then _ else _) = _ =>
      assert (B : c = false) by (vm_compute; reflexivity); rewrite B; reflexivity end. }
  cbn [extract_error_bounds]. rewrite B2, B3. cbn [bind].
  unfold meters_table. set (one := f32_of_Z 1). clearbody one. reflexivity.
Qed.
Lemma meters_valid : valid_table meters_table.
Proof. exact (proj1 (created_valid _ _ _ _ same_order_enumerates meters_created)). Qed.

(** * The readings *)
Definition bits (z : Z) : Z := to_bits (f32_of_Z z).
Definition meters : Pipeline.metadata := {| Pipeline.t_name := "meters"; Pipeline.t_fields := 2 |}.

(** Meter, second and two values. *)
Definition readings : list (string * Z * Z * Z) :=
  [("a", 1, 90, 5); ("b", 1, 7, 7); ("a", 2, 80, 5); ("a", 3, 70, 5); ("a", 4, 60, 5); ("a", 5, 50, 5);
   ("a", 6, 40, 5); ("a", 7, 30, 5); ("a", 8, 20, 5); ("a", 9, 10, 6); ("a", 10, 0, 5); ("a", 11, 33, 44)]%Z.
Definition second (t : Z) : Z := (1700000000000000 + 1000000 * t)%Z.
Definition reading_row (r : string * Z * Z * Z) : Pipeline.row :=
  match r with
  | (tag, t, x, y) =>
      {| Pipeline.r_tags := [tag]; Pipeline.r_time := second t; Pipeline.r_values := [bits x; bits y] |}
  end.

(** A buffer has room for ten data points, so the readings are in three buffers. *)
Definition meters_events : list Pipeline.event :=
  [Pipeline.Replay; Pipeline.Insert meters (map reading_row readings) 100%Z; Pipeline.Send; Pipeline.Receive]
  ++ repeat (Pipeline.Point true) 11 ++ [Pipeline.Send_full; Pipeline.Point true; Pipeline.Finish;
   Pipeline.Request_flush; Pipeline.Receive;
   Pipeline.Compress; Pipeline.Send_segments [5%Z; 5%Z]; Pipeline.Compress; Pipeline.Send_segments [5%Z; 5%Z];
   Pipeline.Compress; Pipeline.Send_segments [5%Z; 5%Z]; Pipeline.Compress;
   Pipeline.Write; Pipeline.Work; Pipeline.Write; Pipeline.Work; Pipeline.Write; Pipeline.Work;
   Pipeline.Write; Pipeline.Work; Pipeline.Commit true; Pipeline.Work].
Definition meters_limits : Pipeline.pool := PipelineExamples.pools 1000 10000 1000.

Definition reading_item (id : Z) (r : string * Z * Z * Z) : item :=
  match r with
  | (tag, t, x, y) =>
      {| PipelineSpec.i_meta := meters; PipelineSpec.i_tags := [tag];
         PipelineSpec.i_point := {| Pipeline.p_time := second t; Pipeline.p_values := [bits x; bits y];
                                    Pipeline.p_source := Some id |} |}
  end.

Notation meters_run := (Pipeline.run PipelineExamples.toy_hash 10 PipelineExamples.toy_sort true meters_events
  (Pipeline.start true meters_limits [] [])).

Definition meters_state : Pipeline.state :=
  match meters_run with
  | Pipeline.Next s1 =>
      match Pipeline.step PipelineExamples.toy_hash 10 PipelineExamples.toy_sort true Pipeline.Return s1 with
      | Pipeline.Next s => s
      | _ => s1
      end
  | _ => Pipeline.start true meters_limits [] []
  end.

Lemma meters_ingested : exists s1, meters_run = Pipeline.Next s1
  /\ PipelineSpec.along PipelineExamples.toy_hash 10 PipelineExamples.toy_sort true PipelineSpec.usual
       meters_events (Pipeline.start true meters_limits [] [])
  /\ ~ In Pipeline.Crash meters_events
  /\ PipelineSpec.collision_free PipelineExamples.toy_hash (PipelineSpec.received s1)
  /\ PipelineSpec.distinct_times (PipelineSpec.received s1)
  /\ Pipeline.step PipelineExamples.toy_hash 10 PipelineExamples.toy_sort true Pipeline.Return s1
     = Pipeline.Next meters_state.
Proof.
  assert (H : PipelineExamples.checked 10 true meters_events meters_limits
    (fun s => PipelineExamples.distinct_timesb (PipelineSpec.received s)) = true) by (vm_compute; reflexivity).
  apply PipelineExamples.checked_ok in H. destruct H as (s1 & H1 & H2 & H3 & H4).
  exists s1. split; [exact H1|]. split; [exact H2|].
  split. { unfold meters_events. cbn. intros HC. repeat (destruct HC as [HC|HC]; [discriminate HC|]). exact HC. }
  split; [exact H3|]. split; [apply PipelineExamples.distinct_timesb_ok; exact H4|].
  unfold meters_state. rewrite H1. vm_compute in H1. injection H1 as <-. vm_compute. reflexivity.
Qed.

Lemma meters_sent : sent_to "meters" meters_state = map (reading_item 0) readings.
Proof. vm_compute. reflexivity. Qed.
Lemma meters_buffers : length (committed_to "meters" meters_state) = 3.
Proof. vm_compute. reflexivity. Qed.

Lemma meters_fields position column name eb : field_at meters_table position column name eb ->
  (position < 2) /\ eb = Absolute (f32_of_Z 1).
Proof.
  intros [H1 _ H3]. unfold meters_table in *. cbn [field_column_indices error_bounds] in *.
  destruct position as [|[|[|position]]]; cbn in H1; try discriminate H1; injection H1 as <-; cbn [nth_error] in H3;
    injection H3 as <-; (split; [lia|reflexivity]).
Qed.

Definition meters_latest : Z := second 20.

(** At most twenty readings of at most 100 in the first twenty seconds. *)
Section Readings.
  Variable l : list item.
  Variable ids : list (Z * (string * Z * Z * Z)).
  Hypothesis Hl : l = map (fun p => reading_item (fst p) (snd p)) ids.
  Hypothesis Hunique : NoDup (map (fun p => fst (fst (snd p))) ids).
  Hypothesis Hsmall : forallb (fun p => match snd p with (_, t, x, y) =>
    (0 <=? t)%Z && (t <=? 20)%Z && (0 <=? x)%Z && (x <=? 100)%Z && (0 <=? y)%Z && (y <=? 100)%Z end) ids = true.
  Hypothesis Hfew : length ids <= 20.

  Lemma reading_bounds id tag t x y : In (id, (tag, t, x, y)) ids -> (0 <= t <= 20 /\ 0 <= x <= 100 /\ 0 <= y <= 100)%Z.
  Proof.
    intros H. pose proof (proj1 (forallb_forall _ _) Hsmall _ H) as B. cbn [snd] in B.
    repeat (apply andb_true_iff in B; destruct B as [B ?]).
    repeat match goal with H : (_ <=? _)%Z = true |- _ => apply Z.leb_le in H end. lia.
  Qed.

  Lemma reading_values position x : position < 2 -> In x l -> exists z, (0 <= z <= 100)%Z /\ value_of position x = f32_of_Z z.
  Proof.
    rewrite Hl. intros Hp Hx. apply in_map_iff in Hx. destruct Hx as [[id [[[tag t] a] b]] [<- Hx]].
    destruct (reading_bounds _ _ _ _ _ Hx) as (_ & H1 & H2).
    unfold value_of, reading_item. cbn [PipelineSpec.i_point Pipeline.p_values fst snd].
    destruct position as [|[|position]]; [| |lia]; cbn [nth]; unfold bits; rewrite from_to_bits;
      [exists a|exists b]; (split; [assumption|reflexivity]).
  Qed.

  Lemma readings_few : (INR (length l) <= 20)%R.
  Proof.
    rewrite Hl, map_length. apply le_INR in Hfew. apply Rle_trans with (1 := Hfew).
    rewrite INR_IZR_INZ. apply IZR_le. cbn. lia.
  Qed.

  Lemma readings_can_store : can_store exact_platform meters_table 200 meters_latest 1000000 l.
  Proof.
    destruct falling_hypotheses as (H1 & H2 & H3 & _). cbv zeta in *.
    destruct powers as (P22 & P44 & P46 & P148 & _).
    constructor.
    - exact H1.
    - exact H2.
    - lia.
    - unfold meters_latest, second. lia.
    - split; [lra|]. apply Rle_trans with (2 ^ 44)%R; [rewrite P44; lra|]. apply Rle_pow; [lra|lia].
    - rewrite P44. pose proof readings_few. unfold meters_latest, second.
      change (1700000000000000 + 1000000 * 20)%Z with 1700000020000000%Z. lra.
    - intros x Hx. rewrite Hl in Hx. apply in_map_iff in Hx. destruct Hx as [[id [[[tag t] a] b]] [<- Hx]].
      destruct (reading_bounds _ _ _ _ _ Hx) as (Ht & _).
      unfold time_of, reading_item, meters_latest, second. cbn [PipelineSpec.i_point Pipeline.p_time fst snd]. lia.
    - intros x y Hx Hy Ht Hn. rewrite Hl in Hx, Hy.
      apply in_map_iff in Hx. destruct Hx as [[id [[[tag t] a] b]] [<- Hx]].
      apply in_map_iff in Hy. destruct Hy as [[id' [[[tag' t'] a'] b']] [<- Hy]].
      unfold tags_of, time_of, reading_item in *. cbn [PipelineSpec.i_point Pipeline.p_time PipelineSpec.i_tags fst snd] in *.
      injection Ht as <-. unfold second.
      assert (Ht : t <> t'); [|lia]. intros <-. apply Hn.
      assert (E : (id, (tag, t, a, b)) = (id', (tag, t, a', b'))).
      { clear - Hunique Hx Hy. revert Hunique Hx Hy. generalize ids. intros k. induction k as [|r k IH]; intros HN Hx Hy; [contradiction Hx|].
        cbn [map] in HN. inversion HN as [|q ks Hr Hk]; subst.
        destruct Hx as [->|Hx]; destruct Hy as [Hy|Hy].
        - exact Hy.
        - contradiction Hr. exact (in_map (fun p => fst (fst (snd p))) _ _ Hy).
        - contradiction Hr. subst r. exact (in_map (fun p => fst (fst (snd p))) _ _ Hx).
        - exact (IH Hk Hx Hy). }
      injection E as <- <- <-. reflexivity.
    - intros position column name e Hf. destruct (meters_fields _ _ _ _ Hf) as [_ E]. discriminate E.
    - intros position column name eb x Hf Hx. destruct (meters_fields _ _ _ _ Hf) as [Hp ->].
      destruct (reading_values position x Hp Hx) as [z [Hz ->]].
      destruct (f32_of_Z_exact z ltac:(lia)) as [F1 F2]. destruct (f32_of_Z_exact 1 ltac:(lia)) as [_ O].
      assert (Hr : (0 <= IZR z <= 100)%R) by (split; apply IZR_le; lia).
      split; [|split].
      + right. right. rewrite O, F2. split.
        * change 1%R with (bpow radix2 0). apply bpow_le. lia.
        * rewrite Rabs_pos_eq by lra. lra.
      + destruct (f32_is_nan (f32_of_Z z)) eqn:En; [exfalso; exact (nan_not_finite _ En F1)|reflexivity].
      + intros _. cbn [exact_deviation]. rewrite O, F2, Rabs_pos_eq by lra. lra.
  Qed.

  Lemma readings_margin position column name eb x : field_at meters_table position column name eb ->
    In x l -> finite32 (value_of position x) ->
    (rounding 200 meters_latest 1000000 (length l) <= margin eb (R32 (value_of position x)))%R.
  Proof.
    intros Hf Hx _. destruct (meters_fields _ _ _ _ Hf) as [_ ->]. pose proof readings_few as Hn.
    destruct powers as (P22 & P44 & P46 & P148 & _). destruct slop_bounds as (_ & _ & _ & Hh).
    unfold rounding, meters_latest, second. cbn [margin]. change (1700000000000000 + 1000000 * 20)%Z with 1700000020000000%Z.
    rewrite (proj2 (f32_of_Z_exact 1 ltac:(lia))), P22, P46, P148. lra.
  Qed.

  Lemma readings_rows : Forall (is_row_of meters_table) l.
  Proof.
    rewrite Hl. apply Forall_forall. intros x Hx. apply in_map_iff in Hx.
    destruct Hx as [[id [[[tag t] a] b]] [<- _]]. split; reflexivity.
  Qed.
End Readings.

Definition key_dec (a b : string * Z) : {a = b} + {a <> b}.
Proof. repeat decide equality. Defined.
Definition unique_keys (ids : list (Z * (string * Z * Z * Z))) : bool :=
  Nat.eqb (length (nodup key_dec (map (fun p => fst (fst (snd p))) ids))) (length ids).
Lemma unique_keys_ok ids : unique_keys ids = true -> NoDup (map (fun p : Z * (string * Z * Z * Z) => fst (fst (snd p))) ids).
Proof.
  unfold unique_keys. intros H. apply Nat.eqb_eq in H. rewrite <- (map_length (fun p => fst (fst (snd p))) ids) in H.
  revert H. generalize key_dec. intros d.
  generalize (map (fun p : Z * (string * Z * Z * Z) => fst (fst (snd p))) ids). intros l H.
  induction l as [|k l IH]; [constructor|]. cbn [nodup] in H.
  assert (Hle : forall l, length (nodup d l) <= length l).
  { clear. induction l as [|a l IH]; cbn [nodup length]; [lia|]. destruct (in_dec d a l); cbn [length]; lia. }
  destruct (in_dec d k l) as [Hin|Hin]; [specialize (Hle l); cbn [length] in H; lia|].
  cbn [length] in H. constructor; [exact Hin|]. apply IH. lia.
Qed.

Definition meters_ids : list (Z * (string * Z * Z * Z)) := map (pair 0%Z) readings.
Lemma meters_sent_ids : sent_to "meters" meters_state = map (fun p => reading_item (fst p) (snd p)) meters_ids.
Proof. rewrite meters_sent. unfold meters_ids. rewrite map_map. reflexivity. Qed.
Lemma meters_unique : NoDup (map (fun p => fst (fst (snd p))) meters_ids).
Proof. apply unique_keys_ok. vm_compute. reflexivity. Qed.
Lemma meters_can_store : can_store exact_platform meters_table 200 meters_latest 1000000 (sent_to "meters" meters_state).
Proof. apply (readings_can_store _ meters_ids meters_sent_ids meters_unique); [reflexivity|cbn; lia]. Qed.
Lemma meters_margin position column name eb x : field_at meters_table position column name eb ->
  In x (sent_to "meters" meters_state) -> finite32 (value_of position x) ->
  (rounding 200 meters_latest 1000000 (length (sent_to "meters" meters_state)) <= margin eb (R32 (value_of position x)))%R.
Proof. apply (readings_margin _ meters_ids meters_sent_ids). cbn. lia. Qed.
Lemma meters_rows : Forall (is_row_of meters_table) (sent_to "meters" meters_state).
Proof. exact (readings_rows _ meters_ids meters_sent_ids). Qed.

(** * The files *)
Definition segments_of (s : Pipeline.state) (column : nat) : list stored_segment :=
  match all_segments exact_platform meters_table (column - 2) column (committed_to "meters" s) with
  | Ok l => l
  | _ => []
  end.

(** Some of the segments are in one file and the others are in another one. *)
Definition files_in (s : Pipeline.state) (first_time second_time : Z) (n : nat -> nat) (column : nat)
  : list (file stored_segment) :=
  [File first_time (firstn (n column) (segments_of s column));
   File second_time (skipn (n column) (segments_of s column))].
Definition streams_of (files : nat -> list (file stored_segment)) (column : nat) : stream (list stored_segment) :=
  if existsb (Nat.eqb column) [2; 3]
  then [Batch (read_segments by_insertion None (files column))] else [].

(** The first segment is in a file that is newer than the one with the others. *)
Definition meters_files : nat -> list (file stored_segment) := files_in meters_state 2 1 (fun _ => 1).
Definition meters_streams : nat -> stream (list stored_segment) := streams_of meters_files.

Lemma files_hold s t u n position column name eb l : field_at meters_table position column name eb ->
  all_segments exact_platform meters_table position column (committed_to "meters" s) = Ok l ->
  hold (files_in s t u n column) l.
Proof.
  intros Hf H. exists (files_in s t u n column). split; [reflexivity|].
  assert (E : position = column - 2).
  { destruct Hf as [Hf _ _]. unfold meters_table in Hf. cbn [field_column_indices] in Hf.
    destruct position as [|[|[|position]]]; cbn in Hf; try discriminate Hf; injection Hf as <-; reflexivity. }
  unfold files_in. cbn [flat_map segments_in]. rewrite app_nil_r, firstn_skipn.
  unfold segments_of. rewrite <- E, H. reflexivity.
Qed.
Definition meters_hold := files_hold meters_state 2 1 (fun _ => 1).

Fixpoint orderedb (l : list item) : bool :=
  match l with
  | [] => true
  | x :: l =>
      forallb (fun y => (if list_eq_dec string_dec (tags_of x) (tags_of y) then false else true)
        || (time_of x <? time_of y)%Z) l && orderedb l
  end.
Lemma orderedb_ok l : orderedb l = true -> in_time_order l.
Proof.
  induction l as [|x l IH]; intros H; [constructor|]. cbn [orderedb] in H. apply andb_true_iff in H. destruct H as [H1 H2].
  constructor; [|exact (IH H2)]. apply Forall_forall. intros y Hy _ Et. rewrite forallb_forall in H1. specialize (H1 y Hy).
  destruct (list_eq_dec string_dec (tags_of x) (tags_of y)) as [_|C]; [|contradiction]. apply Z.ltb_lt. exact H1.
Qed.
Lemma meters_ordered : in_time_order (PipelineSpec.received meters_state).
Proof. apply orderedb_ok. vm_compute. reflexivity. Qed.

Lemma meters_aligned : aligned meters_table (committed_to "meters" meters_state) meters_files.
Proof.
  right. right. split; [|intros k _; cbn; lia].
  unfold apart.
  assert (H : forall g h, In g (committed_to "meters" meters_state) -> In h (committed_to "meters" meters_state) ->
    forallb (fun p => forallb (fun q => Pipeline.p_time p <? Pipeline.p_time q)%Z (Pipeline.g_points h)) (Pipeline.g_points g) = true -> before g h).
  { intros g h _ _ H p q Hp Hq. rewrite forallb_forall in H. specialize (H p Hp). rewrite forallb_forall in H.
    specialize (H q Hq). apply Z.ltb_lt in H. exact H. }
  assert (Hl : exists g1 g2 g3, committed_to "meters" meters_state = [g1; g2; g3]
    /\ Pipeline.g_tags g1 = ["a"] /\ (forall h, In h [g2; g3] -> Pipeline.g_tags h = ["a"] ->
         forallb (fun p => forallb (fun q => Pipeline.p_time p <? Pipeline.p_time q)%Z (Pipeline.g_points h)) (Pipeline.g_points g1) = true)
    /\ Pipeline.g_tags g2 <> Pipeline.g_tags g3).
  { destruct (committed_to "meters" meters_state) as [|g1 [|g2 [|g3 [|g4 k]]]] eqn:E;
      try (pose proof meters_buffers as B; rewrite E in B; cbn [length] in B; lia).
    vm_compute in E. injection E as <- <- <-. do 3 eexists. split; [reflexivity|]. split; [reflexivity|].
    split; [|cbn; discriminate].
    intros h [<-|[<-|[]]] Ht; first [discriminate Ht|vm_compute; reflexivity]. }
  destruct Hl as (g1 & g2 & g3 & E & E1 & E2 & E3). rewrite E in *.
  constructor; [|constructor; [|repeat constructor]].
  - apply Forall_forall. intros h Hh Ht. left. apply H; [left; reflexivity|right; exact Hh|].
    apply E2; [exact Hh|]. rewrite <- Ht. exact E1.
  - constructor; [|constructor]. intros Ht. contradiction.
Qed.

Lemma streams_read files : read_from by_insertion 8 meters_table files (streams_of files).
Proof.
  unfold streams_of. constructor.
  - intros k. destruct (existsb (Nat.eqb k) [2; 3]); reflexivity.
  - intros k. destruct (existsb (Nat.eqb k) [2; 3]); exact I.
  - intros k [<-|[<-|[]]]; cbn [existsb Nat.eqb orb batches_of flat_map app concat]; rewrite app_nil_r; reflexivity.
  - intros k Hk. cbn [field_column_indices meters_table] in Hk.
    destruct (existsb (Nat.eqb k) [2; 3]) eqn:E; [|reflexivity].
    apply existsb_exists in E. destruct E as [j [Hj Ej]]. apply Nat.eqb_eq in Ej. subst j. contradiction.
Qed.
Definition meters_read := streams_read meters_files.

(** [SELECT y, ts, meter, x]: 5.1 is returned for the ten values 5.0 and 6.0 of [y], 44.0 and 7.0 are
    returned as they were inserted. *)
Lemma meters_query : exists p bs, scan any_indices meters_table (Some [3; 0; 1; 2]) = Ok p
  /\ consume (query_poll products (grid_stored exact_platform) None (tag_names meters_table) p) 9
       (query_stream p None 8 meters_streams) = Ok (bs, Done)
  /\ firstn 3 (all_columns 4 bs)
     = [repeat (Value 1084437299) 10 ++ [Value (bits 44); Value (bits 7)];
        map (fun t => Time (second t)) [1; 2; 3; 4; 5; 6; 7; 8; 9; 10; 11; 1]%Z;
        repeat (Text "a") 11 ++ [Text "b"]].
Proof.
  eexists. eexists. split; [vm_compute; reflexivity|]. split; [vm_compute; reflexivity|]. vm_compute. reflexivity.
Qed.

Lemma meters_selects : selects meters_table (columns_of meters_table (Some [3; 0; 1; 2])).
Proof.
  split; [repeat constructor; cbn [In]; lia|]. intros i Hi. cbn [columns_of In] in Hi.
  unfold meters_table. cbn [query_schema length meters_columns].
  repeat (destruct Hi as [<-|Hi]; [lia|]). contradiction Hi.
Qed.
Lemma meters_reads : exists i, reads meters_table (columns_of meters_table (Some [3; 0; 1; 2])) i
  /\ type_at (query_schema meters_table) i Float32.
Proof.
  exists 3. split; [split; [reflexivity|left; left; reflexivity]|]. exists "y". reflexivity.
Qed.
Lemma meters_tags : tags_named meters_table.
Proof.
  intros name H. cbn [query_schema meters_table meters_columns In] in H.
  repeat (destruct H as [H|H]; [try discriminate H|]); [|contradiction H].
  injection H as <-. split; discriminate.
Qed.
Lemma meters_computable l r : computable products meters_table l r.
Proof.
  intros i g _ H. unfold meters_table in H. cbn [generated_columns] in H.
  destruct i as [|[|[|[|i]]]]; cbn in H; try discriminate H. destruct i; discriminate H.
Qed.

Lemma return_received hash capacity sort logging s1 s :
  Pipeline.step hash capacity sort logging Pipeline.Return s1 = Pipeline.Next s -> PipelineSpec.received s = PipelineSpec.received s1.
Proof.
  cbn [Pipeline.step]. intros H. destruct (Pipeline.s_client s1); try discriminate H; destruct (Pipeline.s_results s1); try discriminate H.
  - injection H as <-. reflexivity.
  - destruct (Pipeline.is_finished s1); [|discriminate H]. injection H as <-. reflexivity.
Qed.

Lemma meters_example : exists s1,
  let s := meters_state in
  let m := meters_table in
  let sent := sent_to (table_name m) s in
  PipelineSpec.sorts_points PipelineExamples.toy_sort /\ PipelineSpec.nonneg_limits meters_limits
  /\ Pipeline.run PipelineExamples.toy_hash 10 PipelineExamples.toy_sort true meters_events
       (Pipeline.start true meters_limits [] []) = Pipeline.Next s1
  /\ PipelineSpec.along PipelineExamples.toy_hash 10 PipelineExamples.toy_sort true
       PipelineSpec.usual meters_events (Pipeline.start true meters_limits [] [])
  /\ ~ In Pipeline.Crash meters_events
  /\ PipelineSpec.collision_free PipelineExamples.toy_hash (PipelineSpec.received s1)
  /\ PipelineSpec.distinct_times (PipelineSpec.received s1)
  /\ Pipeline.step PipelineExamples.toy_hash 10 PipelineExamples.toy_sort true Pipeline.Return s1
     = Pipeline.Next s
  /\ length sent = 12 /\ length (committed_to (table_name m) s) = 3
  /\ valid_table m /\ tags_named m /\ Forall (is_row_of m) sent
  /\ can_store exact_platform m 200 meters_latest 1000000 sent
  /\ total_order tags_le /\ sorts_segments tags_le by_insertion
  /\ (forall position column name eb l, field_at m position column name eb ->
        all_segments exact_platform m position column (committed_to (table_name m) s) = Ok l ->
        hold (meters_files column) l)
  /\ aligned m (committed_to (table_name m) s) meters_files
  /\ in_time_order (PipelineSpec.received s1)
  /\ (forall j k, In j (field_column_indices m) -> In k (field_column_indices m) ->
        length (meters_files j) = length (meters_files k))
  /\ read_from by_insertion 8 m meters_files meters_streams
  /\ enumerates_indices any_indices
  /\ selects m (columns_of m (Some [3; 0; 1; 2]))
  /\ (exists i, reads m (columns_of m (Some [3; 0; 1; 2])) i /\ type_at (query_schema m) i Float32)
  /\ (forall l r, computable products m l r)
  /\ (forall position column name eb x, field_at m position column name eb -> In x sent ->
        finite32 (value_of position x) ->
        (rounding 200 meters_latest 1000000 (length sent)
         <= margin eb (R32 (value_of position x)))%R)
  /\ exists p bs, scan any_indices m (Some [3; 0; 1; 2]) = Ok p
       /\ consume (query_poll products (grid_stored exact_platform) None (tag_names m) p) 9
            (query_stream p None 8 meters_streams) = Ok (bs, Done)
       /\ firstn 3 (all_columns 4 bs)
          = [repeat (Value 1084437299) 10 ++ [Value (bits 44); Value (bits 7)];
             map (fun t => Time (second t)) [1; 2; 3; 4; 5; 6; 7; 8; 9; 10; 11; 1]%Z;
             repeat (Text "a") 11 ++ [Text "b"]].
Proof.
  destruct meters_ingested as (s1 & H1 & H2 & H3 & H4 & H5 & H6). exists s1. cbv zeta.
  change (table_name meters_table) with "meters".
  split; [exact PipelineExamples.toy_sorts|]. split; [repeat split; intros C; discriminate C|].
  split; [exact H1|]. split; [exact H2|]. split; [exact H3|]. split; [exact H4|]. split; [exact H5|]. split; [exact H6|].
  split; [rewrite meters_sent; reflexivity|]. split; [exact meters_buffers|].
  split; [exact meters_valid|]. split; [exact meters_tags|]. split; [exact meters_rows|].
  split; [exact meters_can_store|]. split; [exact tags_le_total|]. split; [exact by_insertion_sorts|].
  split; [exact meters_hold|]. split; [exact meters_aligned|].
  split; [rewrite <- (return_received _ _ _ _ _ _ H6); exact meters_ordered|]. split; [reflexivity|]. split; [exact meters_read|].
  split; [exact any_indices_enumerates|]. split; [exact meters_selects|]. split; [exact meters_reads|].
  split; [exact meters_computable|]. split; [exact meters_margin|]. exact meters_query.
Qed.

(** * A late reading *)
Definition first_readings : list (string * Z * Z * Z) :=
  map (fun t => ("a", t, 0, if (t <=? 9)%Z then 0 else 100)%Z) [1; 2; 3; 4; 6; 7; 8; 9; 10; 11; 12; 13; 14; 15; 16; 17]%Z.
Definition late_reading : string * Z * Z * Z := ("a", 5, 50, 50)%Z.
Definition flush_one : list Pipeline.event :=
  [Pipeline.Finish; Pipeline.Request_flush; Pipeline.Receive; Pipeline.Compress;
   Pipeline.Send_segments [5%Z; 5%Z]; Pipeline.Compress; Pipeline.Write; Pipeline.Work; Pipeline.Write;
   Pipeline.Work; Pipeline.Commit true; Pipeline.Work].
Definition late_events : list Pipeline.event :=
  [Pipeline.Replay; Pipeline.Insert meters (map reading_row first_readings) 100%Z; Pipeline.Send; Pipeline.Receive]
  ++ repeat (Pipeline.Point true) 16 ++ flush_one
  ++ [Pipeline.Return; Pipeline.Insert meters [reading_row late_reading] 100%Z; Pipeline.Send; Pipeline.Receive;
      Pipeline.Point true] ++ flush_one.

Notation late_run := (Pipeline.run PipelineExamples.toy_hash 20 PipelineExamples.toy_sort true late_events
  (Pipeline.start true meters_limits [] [])).
Definition late_state : Pipeline.state :=
  match late_run with
  | Pipeline.Next s1 =>
      match Pipeline.step PipelineExamples.toy_hash 20 PipelineExamples.toy_sort true Pipeline.Return s1 with
      | Pipeline.Next s => s
      | _ => s1
      end
  | _ => Pipeline.start true meters_limits [] []
  end.

(** The segments of each commit are in a file. *)
Definition late_files : nat -> list (file stored_segment) :=
  files_in late_state 1 2 (fun column => length (segments_of late_state column) - 1).

Definition late_ids : list (Z * (string * Z * Z * Z)) := map (pair 0%Z) first_readings ++ [(1%Z, late_reading)].
Lemma late_sent : sent_to "meters" late_state = map (fun p => reading_item (fst p) (snd p)) late_ids.
Proof. vm_compute. reflexivity. Qed.
Lemma late_unique : NoDup (map (fun p => fst (fst (snd p))) late_ids).
Proof. apply unique_keys_ok. vm_compute. reflexivity. Qed.

Lemma late_query : exists p bs, scan any_indices meters_table (Some [0; 2; 3]) = Ok p
  /\ consume (query_poll products (grid_stored exact_platform) None (tag_names meters_table) p) 9
       (query_stream p None 8 (streams_of late_files)) = Ok (bs, Done)
  /\ map (fun c => nth 16 c (Time 0)) (all_columns 3 bs) = [Time (second 5); Value (bits 50); Value (bits 100)].
Proof.
  eexists. eexists. split; [vm_compute; reflexivity|]. split; [vm_compute; reflexivity|]. vm_compute. reflexivity.
Qed.

Lemma late_item x : In x (sent_to "meters" late_state) -> time_of x = second 5 ->
  x = reading_item 1 late_reading.
Proof.
  rewrite late_sent. intros Hx Ht. apply in_map_iff in Hx. destruct Hx as [[id [[[tag t] a] b]] [<- Hx]].
  unfold time_of, reading_item in Ht. cbn [PipelineSpec.i_point Pipeline.p_time fst snd] in Ht. unfold second in Ht.
  assert (t = 5)%Z by lia. subst t. unfold late_ids in Hx. apply in_app_iff in Hx. destruct Hx as [Hx|[Hx|[]]].
  - exfalso. unfold first_readings in Hx. rewrite map_map in Hx. apply in_map_iff in Hx. destruct Hx as [t [E Hx]].
    injection E as _ _ -> _ _. cbn [In] in Hx. lia.
  - injection Hx as <- <- <- <-. reflexivity.
Qed.

Lemma late_ingested : exists s1, late_run = Pipeline.Next s1
  /\ PipelineSpec.along PipelineExamples.toy_hash 20 PipelineExamples.toy_sort true PipelineSpec.usual
       late_events (Pipeline.start true meters_limits [] [])
  /\ ~ In Pipeline.Crash late_events
  /\ PipelineSpec.collision_free PipelineExamples.toy_hash (PipelineSpec.received s1)
  /\ PipelineSpec.distinct_times (PipelineSpec.received s1)
  /\ Pipeline.step PipelineExamples.toy_hash 20 PipelineExamples.toy_sort true Pipeline.Return s1
     = Pipeline.Next late_state.
Proof.
  assert (H : PipelineExamples.checked 20 true late_events meters_limits
    (fun s => PipelineExamples.distinct_timesb (PipelineSpec.received s)) = true) by (vm_compute; reflexivity).
  apply PipelineExamples.checked_ok in H. destruct H as (s1 & H1 & H2 & H3 & H4).
  exists s1. split; [exact H1|]. split; [exact H2|].
  split. { unfold late_events. cbn. intros HC. repeat (destruct HC as [HC|HC]; [discriminate HC|]). exact HC. }
  split; [exact H3|]. split; [apply PipelineExamples.distinct_timesb_ok; exact H4|].
  unfold late_state. rewrite H1. vm_compute in H1. injection H1 as <-. vm_compute. reflexivity.
Qed.

Lemma late_no_line x : In x (flat_map segments_in (late_files 3)) -> sg_model_type_id (st_segment x) <> swing_id.
Proof.
  assert (H : forallb (fun x => negb (sg_model_type_id (st_segment x) =? swing_id)%Z) (flat_map segments_in (late_files 3)) = true)
    by (vm_compute; reflexivity).
  intros Hx E. rewrite forallb_forall in H. specialize (H x Hx). rewrite E, Z.eqb_refl in H. discriminate H.
Qed.

Lemma late_wrong : ~ within_bound check_slack (Absolute (f32_of_Z 1)) (f32_of_Z 50) (f32_of_Z 100).
Proof.
  destruct (f32_of_Z_exact 50 ltac:(lia)) as [A1 A2]. destruct (f32_of_Z_exact 100 ltac:(lia)) as [B1 B2].
  destruct (f32_of_Z_exact 1 ltac:(lia)) as [_ O].
  assert (Hn : R32 (f32_of_Z 50) <> R32 (f32_of_Z 100)) by (rewrite A2, B2; lra).
  assert (Ha : f32_is_nan (f32_of_Z 50) = false).
  { destruct (f32_is_nan (f32_of_Z 50)) eqn:En; [exfalso; exact (nan_not_finite _ En A1)|reflexivity]. }
  intros [[(_ & _ & H)|[[H _]|[H _]]]|(_ & _ & H)].
  - exact (Hn H).
  - apply Hn. rewrite <- H. reflexivity.
  - rewrite Ha in H. discriminate H.
  - rewrite A2, B2, O in H. unfold check_slack in H. rewrite Rabs_left in H by lra. lra.
Qed.

Lemma late_selects : selects meters_table (columns_of meters_table (Some [0; 2; 3])).
Proof.
  split; [repeat constructor; cbn [In]; lia|]. intros i Hi. cbn [columns_of In] in Hi.
  unfold meters_table. cbn [query_schema length meters_columns].
  repeat (destruct Hi as [<-|Hi]; [lia|]). contradiction Hi.
Qed.

Lemma late_example : exists s1,
  let s := late_state in
  let m := meters_table in
  let sent := sent_to (table_name m) s in
  PipelineSpec.sorts_points PipelineExamples.toy_sort /\ PipelineSpec.nonneg_limits meters_limits
  /\ Pipeline.run PipelineExamples.toy_hash 20 PipelineExamples.toy_sort true late_events
       (Pipeline.start true meters_limits [] []) = Pipeline.Next s1
  /\ PipelineSpec.along PipelineExamples.toy_hash 20 PipelineExamples.toy_sort true
       PipelineSpec.usual late_events (Pipeline.start true meters_limits [] [])
  /\ ~ In Pipeline.Crash late_events
  /\ PipelineSpec.collision_free PipelineExamples.toy_hash (PipelineSpec.received s1)
  /\ PipelineSpec.distinct_times (PipelineSpec.received s1)
  /\ Pipeline.step PipelineExamples.toy_hash 20 PipelineExamples.toy_sort true Pipeline.Return s1
     = Pipeline.Next s
  /\ valid_table m /\ tags_named m /\ Forall (is_row_of m) sent
  /\ can_store exact_platform m 200 meters_latest 1000000 sent
  /\ total_order tags_le /\ sorts_segments tags_le by_insertion
  /\ (forall position column name eb l, field_at m position column name eb ->
        all_segments exact_platform m position column (committed_to (table_name m) s) = Ok l ->
        hold (late_files column) l)
  /\ (forall k, In k (field_column_indices m) -> 2 <= length (late_files k))
  /\ read_from by_insertion 8 m late_files (streams_of late_files)
  /\ enumerates_indices any_indices
  /\ selects m (columns_of m (Some [0; 2; 3]))
  /\ (exists i, reads m (columns_of m (Some [0; 2; 3])) i /\ type_at (query_schema m) i Float32)
  /\ (forall l r, computable products m l r)
  /\ (forall position column name eb x, field_at m position column name eb -> In x sent ->
        finite32 (value_of position x) ->
        (rounding 200 meters_latest 1000000 (length sent)
         <= margin eb (R32 (value_of position x)))%R)
  /\ ~ after_line exact_platform (late_files 3) ["a"] (second 5)
  /\ exists p bs, scan any_indices m (Some [0; 2; 3]) = Ok p
       /\ consume (query_poll products (grid_stored exact_platform) None (tag_names m) p) 9
            (query_stream p None 8 (streams_of late_files)) = Ok (bs, Done)
       /\ map (fun c => nth 16 c (Time 0)) (all_columns 3 bs)
          = [Time (second 5); Value (bits 50); Value (bits 100)]
       /\ field_at m 1 3 "y" (Absolute (f32_of_Z 1))
       /\ forall x, In x sent -> time_of x = second 5 ->
            ~ within_bound check_slack (Absolute (f32_of_Z 1)) (value_of 1 x) (from_bits (bits 100)).
Proof.
  destruct late_ingested as (s1 & H). exists s1. cbv zeta.
  destruct H as (H1 & H2 & H3 & H4 & H5 & H6).
  destruct meters_example as (_ & E1 & E2 & _ & _ & _ & _ & _ & _ & _ & _ & E3 & E4 & _ & _ & E5 & E6 & _ & _ & _ & _ & _ & E7 & _).
  split; [exact E1|]. split; [exact E2|]. split; [exact H1|]. split; [exact H2|]. split; [exact H3|].
  split; [exact H4|]. split; [exact H5|]. split; [exact H6|]. split; [exact E3|]. split; [exact E4|].
  split. { exact (readings_rows _ late_ids late_sent). }
  split. { apply (readings_can_store _ late_ids late_sent late_unique); [reflexivity|cbn; lia]. }
  split; [exact E5|]. split; [exact E6|].
  split. { exact (files_hold late_state 1 2 _). }
  split. { intros k _. cbn. lia. }
  split. { exact (streams_read late_files). }
  split; [exact E7|]. split; [exact late_selects|].
  split.
  { exists 3. split; [split; [reflexivity|left; right; right; left; reflexivity]|]. exists "y". reflexivity. }
  split. { exact meters_computable. }
  split. { apply (readings_margin _ late_ids late_sent). cbn. lia. }
  split.
  { intros (x & ts & vs & Hx & _ & E & _). exact (late_no_line x Hx E). }
  destruct late_query as (p & bs & Q1 & Q2 & Q3). exists p, bs. split; [exact Q1|]. split; [exact Q2|].
  split; [exact Q3|].
  split.
  { constructor; reflexivity. }
  intros x Hx Ht. rewrite (late_item x Hx Ht). unfold value_of, reading_item, late_reading.
  cbn [PipelineSpec.i_point Pipeline.p_values fst snd nth]. unfold bits. rewrite !from_to_bits. exact late_wrong.
Qed.

(** * A crash *)
Definition crash_reading : string * Z * Z * Z := ("b", 2, 8, 8)%Z.
Definition crash_events : list Pipeline.event :=
  meters_events ++ [Pipeline.Return; Pipeline.Insert meters [reading_row crash_reading] 10%Z; Pipeline.Send; Pipeline.Receive;
    Pipeline.Crash; Pipeline.Replay; Pipeline.Replay].
Definition crash_state : Pipeline.state :=
  match Pipeline.run PipelineExamples.toy_hash 10 PipelineExamples.toy_sort true crash_events (Pipeline.start true meters_limits [] []) with
  | Pipeline.Next s => s
  | _ => Pipeline.start true meters_limits [] []
  end.
Definition crash_ids : list (Z * (string * Z * Z * Z)) := map (pair 0%Z) readings ++ [(1%Z, crash_reading)].
Lemma crash_sent : sent_to "meters" crash_state = map (fun p => reading_item (fst p) (snd p)) crash_ids.
Proof. vm_compute. reflexivity. Qed.
Lemma crash_unique : NoDup (map (fun p => fst (fst (snd p))) crash_ids).
Proof. apply unique_keys_ok. vm_compute. reflexivity. Qed.
Lemma crash_committed : committed_to "meters" crash_state = committed_to "meters" meters_state.
Proof. vm_compute. reflexivity. Qed.

Lemma crash_example :
  let s := crash_state in
  let m := meters_table in
  let sent := sent_to (table_name m) s in
  PipelineSpec.sorts_points PipelineExamples.toy_sort
  /\ Pipeline.run PipelineExamples.toy_hash 10 PipelineExamples.toy_sort true crash_events
       (Pipeline.start true meters_limits [] []) = Pipeline.Next s
  /\ PipelineSpec.along PipelineExamples.toy_hash 10 PipelineExamples.toy_sort true
       (fun e s => PipelineSpec.undisturbed e s /\ PipelineSpec.spills_written e)
       crash_events (Pipeline.start true meters_limits [] [])
  /\ In Pipeline.Crash crash_events
  /\ PipelineSpec.collision_free PipelineExamples.toy_hash (PipelineSpec.received s)
  /\ PipelineSpec.distinct_times (PipelineSpec.received s)
  /\ length sent = 13 /\ length (saved_in (table_name m) s) = 12
  /\ valid_table m /\ tags_named m /\ Forall (is_row_of m) sent
  /\ can_store exact_platform m 200 meters_latest 1000000 sent
  /\ total_order tags_le /\ sorts_segments tags_le by_insertion
  /\ (forall position column name eb l, field_at m position column name eb ->
        all_segments exact_platform m position column (committed_to (table_name m) s) = Ok l ->
        hold (meters_files column) l)
  /\ aligned m (committed_to (table_name m) s) meters_files
  /\ read_from by_insertion 8 m meters_files meters_streams
  /\ enumerates_indices any_indices
  /\ selects m (columns_of m (Some [3; 0; 1; 2]))
  /\ (exists i, reads m (columns_of m (Some [3; 0; 1; 2])) i /\ type_at (query_schema m) i Float32)
  /\ (forall l r, computable products m l r).
Proof.
  cbv zeta. change (table_name meters_table) with "meters".
  assert (H : PipelineExamples.checked 10 true crash_events meters_limits
    (fun s => PipelineExamples.distinct_timesb (PipelineSpec.received s)) = true) by (vm_compute; reflexivity).
  apply PipelineExamples.checked_ok in H. destruct H as (s1 & H1 & H2 & H3 & H4).
  assert (Es : crash_state = s1) by (unfold crash_state; rewrite H1; reflexivity).
  split; [exact PipelineExamples.toy_sorts|].
  split; [rewrite Es; exact H1|].
  split.
  { clear - H2. revert H2. generalize (Pipeline.start true meters_limits [] []). generalize crash_events.
    induction l as [|e l IH]; intros s0 Ha; cbn [PipelineSpec.along] in *; [exact I|].
    destruct Ha as [[Hu [Hw _]] Ha]. split; [split; assumption|].
    destruct (Pipeline.step _ _ _ _ e s0); try exact Ha. exact (IH _ Ha). }
  split; [unfold crash_events; apply in_app_iff; right; cbn [In]; tauto|].
  rewrite Es at 1 2. split; [exact H3|]. split; [apply PipelineExamples.distinct_timesb_ok; exact H4|]. clear H1 H2 H3 H4 Es s1.
  split; [rewrite crash_sent; reflexivity|]. split; [vm_compute; reflexivity|].
  split; [exact meters_valid|]. split; [exact meters_tags|].
  split; [exact (readings_rows _ crash_ids crash_sent)|].
  split; [apply (readings_can_store _ crash_ids crash_sent crash_unique); [reflexivity|cbn; lia]|].
  split; [exact tags_le_total|]. split; [exact by_insertion_sorts|].
  rewrite crash_committed.
  split; [exact meters_hold|]. split; [exact meters_aligned|]. split; [exact meters_read|].
  split; [exact any_indices_enumerates|]. split; [exact meters_selects|]. split; [exact meters_reads|].
  exact meters_computable.
Qed.
