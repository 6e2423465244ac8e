(** Definitions that are accepted from other nodes but do not survive a restart. *)
From Coq Require Import ZArith Bool String List Lia Permutation Sorted.
From Verif Require Import Model.Base Model.Float Model.ErrorBound Model.Filters Model.Table
  Spec.ErrorBoundSpec Spec.TableSpec Proofs.TableProofs Proofs.DefinitionProofs
  Proofs.StoredDefinitionProofs.
Import ListNotations.
Open Scope nat_scope.
Open Scope list_scope.
Open Scope string_scope.
Open Scope list_scope.

(** A field with an error bound that is not a number. *)
Definition nan_message : message :=
  Message "t" [("ts", Timestamp_us); ("f", Float32)] [(2, f32_zero); (0, f32_nan)]%Z [[]; []].

Definition nan_table : metadata :=
  Metadata "t" 0 [1] [] [Lossless; Absolute f32_nan] [None; None]
    [("ts", Timestamp_us); ("f", Float32)] [("ts", Timestamp_us); ("f", Float32)] [0; 1]
    base_compressed_schema.

Lemma load_rows_fails : forall ser ord s rows r, In r rows ->
  (forall m, load_row ser ord s r <> Ok m) -> forall ms, load_rows ser ord s rows <> Ok ms.
Proof.
  intros ser ord s rows r. induction rows as [|q rows IH]; intros Hin H ms; [destruct Hin|].
  cbn [load_rows]. destruct (load_row ser ord s q) as [m| |] eqn:E; cbn [bind]; try discriminate.
  destruct Hin as [->|Hin]; [now apply H in E|].
  destruct (load_rows ser ord s rows) as [ms'| |] eqn:F; cbn [bind]; try discriminate.
  destruct (IH Hin H ms' eq_refl).
Qed.

Lemma nan_stops_restart : forall ser ord s,
  Forall (fun r => row_table r <> "t") (rows_of_fields s) ->
  exists m s', decode ser ord nan_message = Ok m /\ ~ Forall valid_error_bound (error_bounds m)
    /\ save ser m s = Ok s' /\ forall ms, load_all ser ord s' <> Ok ms.
Proof.
  intros ser ord s Hs.
  assert (E1 : decode ser ord nan_message = Ok nan_table) by reflexivity.
  assert (E2 : save ser nan_table s
               = Ok (Store (table_rows s ++ [("t", [("ts", Timestamp_us); ("f", Float32)])])
                       (rows_of_fields s ++ [FieldRow "t" "f" 1 f32_nan false None])))
    by reflexivity.
  exists nan_table. eexists. split; [exact E1|]. split; [|split; [exact E2|]].
  - intros H. inversion H as [|? ? _ H']; subst. inversion H' as [|? ? Hv _]; subst.
    destruct Hv as (Hf & _). revert Hf. unfold finite32.
    intros Hf. assert (X : Binary.is_finite 24 128 f32_nan = false) by (vm_compute; reflexivity).
    rewrite X in Hf. discriminate.
  - apply (load_rows_fails ser ord _ _ ("t", [("ts", Timestamp_us); ("f", Float32)])).
    + cbn [table_rows]. apply in_or_app. right. now left.
    + intros m. unfold load_row, rows_for. cbn [rows_of_fields].
      rewrite (rows_for_fresh "t" s [FieldRow "t" "f" 1 f32_nan false None] Hs)
        by (constructor; [reflexivity|constructor]).
      cbn [load_error_bounds row_error_bound row_relative].
      assert (F1 : f32_eq f32_nan f32_zero = false) by (vm_compute; reflexivity).
      assert (F2 : is_ok (try_new_absolute f32_nan) = false) by (vm_compute; reflexivity).
      rewrite F1. destruct (try_new_absolute f32_nan); [discriminate F2| |]; cbn [bind]; discriminate.
Qed.

(** A tag that is generated from another tag becomes a stored tag. *)
Definition tag_message (bytes : list Z) : message :=
  Message "t" [("ts", Timestamp_us); ("f", Float32); ("a", Utf8View); ("b", Utf8View)]
    [(2, f32_zero); (2, f32_zero); (2, f32_zero); (2, f32_zero)]%Z [[]; []; []; bytes].
Definition tag_expr : expr := Column "a".

Lemma generated_tag_stored : forall ser ord s, faithful ser -> enumerates ord ->
  Forall (fun r => row_table r <> "t") (rows_of_fields s) ->
  exists m s' n, decode ser ord (tag_message (to_bytes ser tag_expr)) = Ok m
    /\ save ser m s = Ok s'
    /\ load_row ser ord s' (table_name m, query_schema m) = Ok n
    /\ nth_error (generated_columns m) 3 = Some (Some (GeneratedColumn tag_expr [2]))
    /\ nth_error (generated_columns n) 3 = Some None
    /\ length (schema m) = 3 /\ length (schema n) = 4.
Proof.
  intros ser ord s Hf Ho Hs. destruct (Hf tag_expr) as (F1 & F2).
  assert (Eo : ord (column_refs tag_expr) = ["a"]).
  { apply Permutation_length_1_inv. symmetry. apply (Ho (column_refs tag_expr)). }
  unfold decode, tag_message. cbn [message_bounds message_schema message_exprs message_name].
  cbn [decode_error_bounds bind to_dfschema unique map fst existsb String.eqb Ascii.eqb Bool.eqb
       negb andb orb decode_exprs].
  destruct (to_bytes ser tag_expr) as [|z zs]; [congruence|]. rewrite F1. cbn [bind].
  unfold try_from_expr. rewrite Eo.
  cbn -[f32_zero f32_eq].
  eexists. eexists. eexists. split; [reflexivity|]. cbn -[f32_zero f32_eq rows_for load_row].
  split; [reflexivity|]. split.
  - unfold load_row, rows_for. cbn [rows_of_fields].
    rewrite (rows_for_fresh "t" s [FieldRow "t" "f" 1 f32_zero false None] Hs)
      by (constructor; [reflexivity|constructor]).
    cbn [load_error_bounds row_error_bound].
    assert (F3 : f32_eq f32_zero f32_zero = true) by (vm_compute; reflexivity).
    rewrite F3. cbn -[f32_zero f32_eq]. reflexivity.
  - repeat split; reflexivity.
Qed.
