(** Queries of small tables. *)
From Coq Require Import ZArith Bool String List Lia Permutation.
From Verif Require Import Model.Base Model.Float Model.ErrorBound Model.Filters Model.Streams
  Model.Table Model.Scan Spec.FiltersSpec Spec.StreamsSpec Spec.TableSpec Spec.ScanSpec
  Proofs.StoredDefinitionProofs Proofs.DefinitionExample Proofs.JoinErrorProofs
  Proofs.QueryProofs.
Import ListNotations.
Open Scope nat_scope.
Open Scope string_scope.
Open Scope list_scope.

(** The files of a table with the given rows: one segment per field, not ready at first. *)
Definition files_of (m : metadata) (rows : list data_row) (k : nat) : stream (list (list point)) :=
  if existsb (Nat.eqb k) (field_column_indices m)
  then [Pending; Batch [map (point_of m k) rows]] else [].

Lemma files_of_contain : forall m rows size, rows <> [] ->
  files_contain id_grid None None size m rows (files_of m rows).
Proof.
  intros m rows size H.
  assert (X : forall k, In k (field_column_indices m)
                \/ (~ In k (field_column_indices m) /\ files_of m rows k = [])).
  { intros k. unfold files_of. destruct (existsb (Nat.eqb k) (field_column_indices m)) eqn:E.
    - left. apply existsb_exists in E. destruct E as (j & Hj & E). apply Nat.eqb_eq in E.
      now subst j.
    - right. split; [|reflexivity]. intros Hin.
      assert (T : existsb (Nat.eqb k) (field_column_indices m) = true)
        by (apply existsb_exists; exists k; split; [exact Hin|apply Nat.eqb_refl]). congruence. }
  assert (Y : forall k, In k (field_column_indices m) ->
            files_of m rows k = [Pending; Batch [map (point_of m k) rows]]).
  { intros k Hk. unfold files_of.
    assert (T : existsb (Nat.eqb k) (field_column_indices m) = true)
      by (apply existsb_exists; exists k; split; [exact Hk|apply Nat.eqb_refl]). now rewrite T. }
  split.
  - intros k. destruct (X k) as [Hk|(_ & ->)]; [rewrite (Y k Hk)|]; reflexivity.
  - intros k. destruct (X k) as [Hk|(_ & ->)]; [rewrite (Y k Hk)|]; exact I.
  - intros k b s. destruct (X k) as [Hk|(_ & ->)]; [rewrite (Y k Hk)|intros []].
    cbn. intros [<-|[]] [<-|[]]. destruct rows; [congruence|]. discriminate.
  - intros k Hk. rewrite (Y k Hk). cbn. now rewrite !app_nil_r.
  - intros k Hk. now destruct (X k) as [?|(_ & ?)].
Qed.

(** Multiplication. *)
Definition products : functions :=
  {| apply := fun _ _ => None;
     apply_operator := fun op a b =>
       match op, a, b with Operator 2, Value x, Value y => Some (Value (x * y)) | _, _, _ => None end |}.

Definition turbine_row (t speed torque : Z) : data_row :=
  DataRow t (fun name => if String.eqb name "park" then "north" else "t1")
    (fun name => if String.eqb name "speed" then speed else torque).
Definition turbine_rows : list data_row := [turbine_row 100 3 5; turbine_row 200 4 7].

Lemma turbine_valid : valid_table turbine_table.
Proof. exact (proj1 (created_valid _ _ _ _ same_order_enumerates turbine_created)). Qed.

Lemma turbine_computable : forall l r, computable products turbine_table l r.
Proof.
  intros l r i g _ Hg. unfold turbine_table in Hg. cbn [generated_columns] in Hg.
  destruct i as [|[|[|[|[|[|i]]]]]]; cbn in Hg; try discriminate.
  - injection Hg as <-. eexists. unfold turbine_table. set (five := f32_of_Z 5). clearbody five.
    reflexivity.
  - destruct i; discriminate.
Qed.

Definition any_indices (l : list nat) : list nat := l.
Lemma any_indices_enumerates : enumerates_indices any_indices.
Proof. intros l. apply Permutation_refl. Qed.

(** [SELECT torque, power, park, ts] *)
Lemma turbine_query : exists p bs, scan any_indices turbine_table (Some [5; 2; 1; 0]) = Ok p
  /\ consume (query_poll products id_grid None (tag_names turbine_table) p) 9
       (query_stream p None 8 (files_of turbine_table turbine_rows)) = Ok (bs, Done)
  /\ all_columns 4 bs = [[Value 5; Value 7]; [Value 15; Value 28]; [Text "north"; Text "north"];
                         [Time 100; Time 200]].
Proof.
  unfold turbine_table. set (five := f32_of_Z 5). clearbody five.
  eexists. eexists. split; [reflexivity|]. split; reflexivity.
Qed.

(** Multiplication that fails if the product is too large. *)
Definition small_products : functions :=
  {| apply := fun _ _ => None;
     apply_operator := fun op a b =>
       match op, a, b with
       | Operator 2, Value x, Value y => if (x * y <? 20)%Z then Some (Value (x * y)) else None
       | _, _, _ => None
       end |}.
Lemma turbine_attempted : forall l r, attempted small_products turbine_table l r.
Proof.
  intros l r i g _ Hg. unfold turbine_table in Hg. cbn [generated_columns] in Hg.
  destruct i as [|[|[|[|[|[|i]]]]]]; cbn in Hg; try discriminate.
  - injection Hg as <-. unfold turbine_table. set (five := f32_of_Z 5). clearbody five.
    cbn -[Z.mul Z.ltb]. destruct (_ <? 20)%Z; [right; now eexists|now left].
  - destruct i; discriminate.
Qed.
Lemma turbine_fails : exists p bs, scan any_indices turbine_table (Some [5; 2; 1; 0]) = Ok p
  /\ consume (query_poll small_products id_grid None (tag_names turbine_table) p) 9
       (query_stream p None 1 (files_of turbine_table turbine_rows)) = Ok (bs, Error 0)
  /\ all_columns 4 bs = [[Value 5]; [Value 15]; [Text "north"]; [Time 100]].
Proof.
  unfold turbine_table. set (five := f32_of_Z 5). clearbody five.
  eexists. eexists. split; [reflexivity|]. split; reflexivity.
Qed.

Lemma turbine_tags : tags_named turbine_table.
Proof.
  intros name H. unfold turbine_table in H. cbn [query_schema In] in H.
  repeat destruct H as [H|H]; try discriminate; try contradiction; injection H as <-;
    split; discriminate.
Qed.

Lemma turbine_selects : selects turbine_table [5; 2; 1; 0].
Proof.
  split.
  - repeat constructor; cbn; intros H; repeat destruct H as [H|H]; try discriminate; contradiction.
  - intros i H. change (length (query_schema turbine_table)) with 6. cbn in H.
    repeat destruct H as [H|H]; try contradiction; lia.
Qed.

Lemma turbine_reads : exists i, reads turbine_table [5; 2; 1; 0] i
  /\ type_at (query_schema turbine_table) i Float32.
Proof. exists 5. split; [split; [reflexivity|left; now left]|now exists "torque"]. Qed.

(** [SELECT ts]: the first stored field is column 3 of the table but column 2 in the files; column 3
    in the files is a tag, so no files are read. *)
Lemma timestamps_lost : exists defs m rows p,
  create_table same_order "wind_turbine" defs = Ok m /\ length rows = 2
  /\ files_contain id_grid None None 8 m rows (files_of m rows)
  /\ scan any_indices m (Some [0]) = Ok p
  /\ forall F n, consume (query_poll F id_grid None (tag_names m) p) (S n)
       (query_stream p None 8 (files_of m rows)) = Ok ([], Done).
Proof.
  exists turbine_defs, turbine_table, turbine_rows. eexists. split; [exact turbine_created|].
  split; [reflexivity|]. split; [now apply files_of_contain|].
  unfold turbine_table. set (five := f32_of_Z 5). clearbody five.
  split; [reflexivity|]. intros F n. reflexivity.
Qed.

(** No columns are requested. *)
Lemma no_columns : exists defs m rows p,
  create_table same_order "t" defs = Ok m /\ stored_field_first m /\ length rows = 2
  /\ files_contain id_grid None None 8 m rows (files_of m rows)
  /\ scan any_indices m (Some []) = Ok p
  /\ forall F, consume (query_poll F id_grid None (tag_names m) p) 9
       (query_stream p None 8 (files_of m rows)) = Panic.
Proof.
  exists [("ts", Timestamp_column); ("f", Field_column f32_zero false)].
  assert (B1 : has_error_bound f32_zero = false) by (vm_compute; reflexivity).
  eexists. exists turbine_rows. eexists.
  split; [unfold create_table; cbn [extract_error_bounds]; rewrite B1; reflexivity|].
  split; [exists 1; split; [reflexivity|split; [now exists "f"|]];
          intros [|j] Hj; [split; [reflexivity|intros (n & H); discriminate]|lia]|].
  split; [reflexivity|]. split; [now apply files_of_contain|].
  split; [reflexivity|]. intros F. reflexivity.
Qed.

(** A field that is generated from a tag: [FIELD AS (park)]. *)
Lemma wrong_type : exists defs m p,
  create_table same_order "t" defs = Ok m
  /\ scan any_indices m (Some [3]) = Ok p
  /\ forall F, consume (query_poll F id_grid None (tag_names m) p) 9
       (query_stream p None 8 (files_of m turbine_rows)) = Panic.
Proof.
  exists [("ts", Timestamp_column); ("f", Field_column f32_zero false); ("park", Tag_column);
          ("g", Generated_column (Column "park"))].
  assert (B1 : has_error_bound f32_zero = false) by (vm_compute; reflexivity).
  eexists. eexists.
  split; [unfold create_table; cbn [extract_error_bounds]; rewrite B1; reflexivity|].
  split; [reflexivity|]. intros F. reflexivity.
Qed.

(** A tag with the name of a column of data points: [SELECT value]. *)
Lemma tag_value : exists defs m p,
  create_table same_order "t" defs = Ok m
  /\ scan any_indices m (Some [2]) = Ok p
  /\ forall F, consume (query_poll F id_grid None (tag_names m) p) 9
       (query_stream p None 8 (files_of m turbine_rows)) = Panic.
Proof.
  exists [("ts", Timestamp_column); ("f", Field_column f32_zero false); ("value", Tag_column)].
  assert (B1 : has_error_bound f32_zero = false) by (vm_compute; reflexivity).
  eexists. eexists.
  split; [unfold create_table; cbn [extract_error_bounds]; rewrite B1; reflexivity|].
  split; [reflexivity|]. intros F. reflexivity.
Qed.

(** A field with the same value in all rows: [FIELD AS (1)]. *)
Lemma constant_column : exists defs m p,
  create_table same_order "t" defs = Ok m
  /\ (forall F r, computable F m [2] r)
  /\ scan any_indices m (Some [2]) = Ok p
  /\ forall F, consume (query_poll F id_grid None (tag_names m) p) 9
       (query_stream p None 8 (files_of m turbine_rows)) = Panic.
Proof.
  exists [("ts", Timestamp_column); ("f", Field_column f32_zero false);
          ("g", Generated_column (Literal (Value 1)))].
  assert (B1 : has_error_bound f32_zero = false) by (vm_compute; reflexivity).
  eexists. eexists.
  split; [unfold create_table; cbn [extract_error_bounds]; rewrite B1; reflexivity|].
  split; [intros F r i g [<-|[]] H; injection H as <-; now exists 1%Z|].
  split; [reflexivity|]. intros F. reflexivity.
Qed.

(** Queries that do not use fields. *)
Lemma query_without_fields : forall (S : Type) (grid : S -> list point) predicate limit size F m rows
    set_order projection streams,
  valid_table m -> tags_named m -> enumerates_indices set_order ->
  let l := columns_of m projection in
  selects m l -> l <> [] ->
  (forall i, In i l -> stored_at (generated_columns m) i /\ ~ type_at (query_schema m) i Float32) ->
  stored_field_first m ->
  0 < size -> limit <> Some 0 ->
  files_contain grid predicate limit size m rows streams ->
  exists p, scan set_order m projection = Ok p
    /\ answers F m rows l (fun n =>
         consume (query_poll F grid predicate (tag_names m) p) n
           (query_stream p limit size streams)).
Proof.
  intros S grid predicate limit size F m rows set_order projection streams Hv Ht Ho l Hl Hne Hs Hf
    Hsize Hlimit Hfiles.
  apply query_ok; auto.
  - fold l. destruct l as [|i l']; [congruence|]. exists i. split; [apply Hs|left]; now left.
  - intros r Hr i g Hi Hg. destruct (Hs i Hi) as (H & _). unfold stored_at in H. congruence.
Qed.

Definition plain_table : metadata :=
  Metadata "t" 0 [1] [2] [Lossless; Lossless; Lossless] [None; None; None]
    [("ts", Timestamp_us); ("f", Float32); ("park", Utf8View)]
    [("ts", Timestamp_us); ("f", Float32); ("park", Utf8View)]
    [0; 1; 2] (base_compressed_schema ++ [("park", Utf8View)]).
Lemma plain_example : valid_table plain_table /\ tags_named plain_table
  /\ selects plain_table [2; 0]
  /\ (forall i, In i [2; 0] -> stored_at (generated_columns plain_table) i
        /\ ~ type_at (query_schema plain_table) i Float32)
  /\ stored_field_first plain_table
  /\ files_contain id_grid None None 8 plain_table turbine_rows (files_of plain_table turbine_rows)
  /\ exists p bs, scan any_indices plain_table (Some [2; 0]) = Ok p
     /\ consume (query_poll products id_grid None (tag_names plain_table) p) 9
          (query_stream p None 8 (files_of plain_table turbine_rows)) = Ok (bs, Done)
     /\ all_columns 2 bs = [[Text "north"; Text "north"]; [Time 100; Time 200]].
Proof.
  split; [|split; [|split; [|split; [|split; [|split]]]]].
  - assert (B1 : has_error_bound f32_zero = false) by (vm_compute; reflexivity).
    assert (C : create_table same_order "t" [("ts", Timestamp_column);
              ("f", Field_column f32_zero false); ("park", Tag_column)] = Ok plain_table)
      by (unfold create_table; cbn [extract_error_bounds]; rewrite B1; reflexivity).
    exact (proj1 (created_valid _ _ _ _ same_order_enumerates C)).
  - intros name H. cbn [query_schema plain_table In] in H.
    repeat destruct H as [H|H]; try discriminate; try contradiction; injection H as <-;
      split; discriminate.
  - split; [repeat constructor; cbn; intros H; repeat destruct H as [H|H]; try discriminate;
            contradiction|].
    intros i [<-|[<-|[]]]; cbn; lia.
  - intros i [<-|[<-|[]]]; (split; [reflexivity|intros (n & H); discriminate]).
  - exists 1. split; [reflexivity|]. split; [now exists "f"|].
    intros [|j] Hj; [split; [reflexivity|intros (n & H); discriminate]|lia].
  - now apply files_of_contain.
  - eexists. eexists. split; [reflexivity|]. split; reflexivity.
Qed.
