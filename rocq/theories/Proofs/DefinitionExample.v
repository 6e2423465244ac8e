(** A table with a generated column before the columns it is computed from. *)
From Coq Require Import ZArith Bool String List Lia Permutation Sorted.
From Verif Require Import Model.Base Model.Float Model.ErrorBound Model.Filters Model.Table
  Spec.ErrorBoundSpec Spec.TableSpec Proofs.TableProofs Proofs.DefinitionProofs
  Proofs.StoredDefinitionProofs Proofs.SerializerExample.
Import ListNotations.
Open Scope nat_scope.
Open Scope string_scope.
Open Scope list_scope.

(** [CREATE TIME SERIES TABLE wind_turbine (ts TIMESTAMP, park TAG, power FIELD AS (speed * torque),
    speed FIELD, turbine TAG, torque FIELD(5%))] *)
Definition turbine_defs : list column_def :=
  [("ts", Timestamp_column); ("park", Tag_column);
   ("power", Generated_column (Binary (Column "speed") (Operator 2) (Column "torque")));
   ("speed", Field_column f32_zero false); ("turbine", Tag_column);
   ("torque", Field_column (f32_of_Z 5) true)].
Definition turbine_table : metadata :=
  Metadata "wind_turbine" 0 [2; 4] [1; 3]
    [Lossless; Lossless; Lossless; Lossless; Relative (f32_of_Z 5)]
    [None; None;
     Some (GeneratedColumn (Binary (Column "speed") (Operator 2) (Column "torque")) [3; 5]);
     None; None; None]
    [("ts", Timestamp_us); ("park", Utf8View); ("speed", Float32); ("turbine", Utf8View);
     ("torque", Float32)]
    [("ts", Timestamp_us); ("park", Utf8View); ("power", Float32); ("speed", Float32);
     ("turbine", Utf8View); ("torque", Float32)]
    [0; 1; 3; 4; 5]
    (base_compressed_schema ++ [("park", Utf8View); ("turbine", Utf8View)]).

Definition same_order (names : list string) : list string := names.
Lemma same_order_enumerates : enumerates same_order.
Proof. intros l. apply Permutation_refl. Qed.

Lemma turbine_created : create_table same_order "wind_turbine" turbine_defs = Ok turbine_table.
Proof.
  unfold create_table, turbine_defs.
  assert (B1 : has_error_bound f32_zero = false) by (vm_compute; reflexivity).
  assert (B2 : has_error_bound (f32_of_Z 5) = true) by (vm_compute; reflexivity).
  assert (B3 : try_new_relative (f32_of_Z 5) = Ok (Relative (f32_of_Z 5))).
  { unfold try_new_relative.
    match goal with |- (if ?c then _ else _) = _ =>
      assert (B : c = false) by (vm_compute; reflexivity); rewrite B; reflexivity end. }
  cbn [extract_error_bounds]. rewrite B1, B2, B3. cbn [bind].
  unfold turbine_table. set (five := f32_of_Z 5). clearbody five. reflexivity.
Qed.

(** [try_new] accepts two columns of timestamps if one of them is generated, and two columns with
    the same name. *)
Lemma two_timestamps : exists columns bounds generated m i j,
  try_new "t" columns bounds generated = Ok m /\ i <> j
  /\ type_at (query_schema m) i Timestamp_us /\ type_at (query_schema m) j Timestamp_us
  /\ exists g, nth_error (generated_columns m) j = Some (Some g)
       /\ sources_match (query_schema m) g.
Proof.
  exists [("ts", Timestamp_us); ("f", Float32); ("later", Timestamp_us)],
    [Lossless; Lossless; Lossless], [None; None; Some (GeneratedColumn (Column "ts") [0])].
  eexists. exists 0, 2. split; [reflexivity|]. split; [lia|].
  split; [now exists "ts"|]. split; [now exists "later"|]. eexists. split; [reflexivity|].
  split; [repeat constructor; intros []|]. split.
  - intros i. split.
    + intros [<-|[]]. exists "ts", Timestamp_us. split; [now left|reflexivity].
    + intros (name & t & [<-|[]] & H). left.
      destruct i as [|[|[|i]]]; cbn in H; try discriminate; [reflexivity|].
      destruct i; discriminate.
  - intros name [<-|[]]. now left.
Qed.

Lemma duplicate_names : exists columns bounds generated m,
  try_new "t" columns bounds generated = Ok m /\ ~ NoDup (map fst (query_schema m)).
Proof.
  exists [("ts", Timestamp_us); ("f", Float32); ("f", Float32)], [Lossless; Lossless; Lossless],
    [None; None; None]. eexists. split; [reflexivity|]. cbn. intros H.
  inversion H as [|? ? _ H']; subst. inversion H' as [|? ? N _]; subst. apply N. now left.
Qed.

Lemma accepted_iff : forall name columns bounds generated,
  (exists m, try_new name columns bounds generated = Ok m)
  <-> well_formed columns bounds generated.
Proof.
  intros name columns bounds generated. split; [|apply try_new_complete].
  intros (m & H). apply (try_new_ok _ _ _ _ _ H).
Qed.

Lemma accepted_described : forall name columns bounds generated m,
  try_new name columns bounds generated = Ok m ->
  describes columns bounds generated m /\ table_name m = name
  /\ compressed_schema m = base_compressed_schema ++ columns_at (schema m) (tag_column_indices m).
Proof.
  intros name columns bounds generated m H.
  destruct (try_new_ok _ _ _ _ _ H) as (_ & D & N & C & _). auto.
Qed.

Lemma same_described : forall columns bounds m n, same_definition m n ->
  describes columns bounds (generated_columns m) m ->
  describes columns bounds (generated_columns n) n.
Proof.
  intros columns bounds m n [_ Q S B E (I1 & I2 & I3 & I4 & I5)] [D1 D2 D3 D4 D5 D6 D7 D8 D9].
  assert (St : forall i, stored_at (generated_columns m) i <-> stored_at (generated_columns n) i).
  { clear - E. unfold stored_at. induction E as [|g h gs hs H E IH]; intros [|i]; cbn; try tauto.
    - destruct g, h; cbn in H; try tauto; split; discriminate.
    - apply IH. }
  rewrite I4 in *. split; rewrite <- ?S, <- ?B, <- ?I1, <- ?I2, <- ?I3, <- ?Q; auto.
  intros i. rewrite D2. apply St.
Qed.

Lemma created_survives : forall ser order order' name defs m, faithful ser -> enumerates order ->
  enumerates order' -> create_table order name defs = Ok m ->
  exists s n, save ser m (Store [] []) = Ok s /\ load_all ser order' s = Ok [n]
    /\ same_definition m n /\ created_as defs n.
Proof.
  intros ser order order' name defs m Hf Ho Ho' H.
  destruct (created_valid order name defs m Ho H) as (V & N & C1 & C2 & C3).
  destruct (restart_all ser order' m (Store [] []) [] Hf Ho' V) as (s & n & E1 & E2 & E3 & E4);
    try constructor.
  exists s, n. split; [exact E1|]. split; [exact E2|]. split; [exact E3|].
  split; [rewrite <- (same_columns m n E3); exact C1|]. split.
  - rewrite <- C2. pose proof (same_exprs m n E3) as F. clear - F.
    induction F as [|g h gs hs G F IH]; [reflexivity|]. cbn. rewrite IH. f_equal.
    destruct g, h; cbn in G |- *; try tauto. now destruct G as (-> & _).
  - pose proof (same_described _ _ _ _ E3 C3) as D. now rewrite <- (same_columns m n E3).
Qed.
