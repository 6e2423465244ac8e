(** C61 - Time series tables created from C and Python have the error bounds that are asked for. *)
From Coq Require Import ZArith Reals Bool String List Permutation.
From Flocq Require Import Core.
From Verif Require Import Model.Base Model.Float Model.ErrorBound Model.Filters Model.Table
  Model.ForeignTables Spec.ErrorBoundSpec Spec.TableSpec Spec.ForeignTablesSpec
  Proofs.ForeignTablesProofs Proofs.ForeignTablesPython Proofs.ForeignTablesWitnesses.
Import ListNotations.
Open Scope string_scope.
Open Scope R_scope.
Open Scope list_scope.

(** A table that is created from C has the columns, error bounds and generated columns that are
    asked for. Nothing is assumed about the numbers. *)
Theorem c61_c_asked : forall order, enumerates order -> forall parse name columns entries generated m,
  NoDup (map fst entries) -> NoDup (map fst generated) ->
  c_create order parse name columns entries generated = Ok m ->
  as_asked stands_for parse name columns entries generated m.
Proof. exact c_asked. Qed.
Print Assumptions c61_c_asked.

(** Exactly the tables that can be created with error bounds that are not zero and have a meaning are
    created. Missing: zero, which should be lossless. *)
Theorem c61_c_created_partial : forall order, enumerates order ->
  forall parse name columns entries generated,
  NoDup (map fst entries) -> NoDup (map fst generated) ->
  (exists m, c_create order parse name columns entries generated = Ok m)
  <-> acceptable parse columns generated
      /\ Forall (fun e => meaningful (snd e) /\ R32 (snd e) <> 0) entries.
Proof. exact c_accepted. Qed.
Print Assumptions c61_c_created_partial.

Example c61_c_example : acceptable parse_w columns_w generated_w
  /\ Forall (fun e => meaningful (snd e) /\ R32 (snd e) <> 0) entries_w
  /\ exists m, c_create same_order parse_w "table" columns_w entries_w generated_w = Ok m
       /\ schema m = firstn 4 columns_w
       /\ error_bounds m = [Lossless; Lossless; Absolute half; Relative (f32_neg minus_ten)].
Proof. split; [exact acceptable_w|]. split; [exact entries_w_ok|exact created_case]. Qed.

(** The process is aborted exactly if one of the error bounds is zero or has no meaning; all other
    errors are returned. *)
Theorem c61_c_aborts_iff : forall order, enumerates order ->
  forall parse name columns entries generated,
  (forall text, parse text <> Panic) -> NoDup (map fst generated) ->
  c_create order parse name columns entries generated = Panic
  <-> Exists (fun e => ~ meaningful (snd e) \/ R32 (snd e) = 0) entries.
Proof. exact c_aborts. Qed.
Print Assumptions c61_c_aborts_iff.

(** So an error bound of zero is not lossless, as it is documented to be. *)
Theorem c61_zero_is_lossless_refuted : exists parse columns entries generated,
  acceptable parse columns generated
  /\ Forall (fun e => meaningful (snd e) /\ stands_for (snd e) Lossless) entries
  /\ forall order, enumerates order ->
       c_create order parse "table" columns entries generated = Panic.
Proof.
  exists parse_w, columns_w, [("wind", f32_zero)], generated_w. destruct zero_case as (A & B & C & D).
  split; [exact A|]. split; [|exact D]. constructor; [|constructor]. split; [now inversion B|exact C].
Qed.
Print Assumptions c61_zero_is_lossless_refuted.

(** And an error bound without a meaning, such as 101%, is not an error. *)
Theorem c61_c_no_abort_refuted : exists parse columns value generated,
  finite32 value /\ R32 value = -101
  /\ forall order, enumerates order ->
       c_create order parse "table" columns [("wind", value)] generated = Panic.
Proof.
  exists parse_w, columns_w, minus_101, generated_w. destruct invalid_case as (A & _ & B).
  split; [exact A|]. split; [exact minus_101_value|exact B].
Qed.
Print Assumptions c61_c_no_abort_refuted.

(** An error bound for a column that the table does not have is ignored. *)
Theorem c61_c_unknown_column_refuted : exists order parse columns name value generated m,
  enumerates order /\ ~ In name (map fst columns)
  /\ c_create order parse "table" columns [(name, value)] generated = Ok m
  /\ Forall (fun eb => eb = Lossless) (error_bounds m).
Proof.
  destruct unknown_case as (A & m & B & C).
  exists same_order, parse_w, columns_w, "pover", half, generated_w, m.
  split; [exact same_order_ok|]. split; [exact A|]. split; [exact B|exact C].
Qed.
Print Assumptions c61_c_unknown_column_refuted.

(** A table that is created from Python has the columns and generated columns that are asked for, and
    error bounds that are as close to those that are asked for as f32 values can be. Missing: error
    bounds that are no larger than those that are asked for. *)
Theorem c61_python_asked_partial : forall order, enumerates order ->
  forall parse dict_order, (forall l, Permutation (dict_order l) l) ->
  forall name columns bounds generated m,
  NoDup (map fst bounds) -> NoDup (map fst generated) ->
  python_create order parse dict_order name columns bounds generated = Ok m ->
  as_asked means_in_python parse name columns bounds generated m.
Proof. exact python_asked. Qed.
Print Assumptions c61_python_asked_partial.

(** Exactly the tables that can be created, with valid error bounds that are not zero or infinite as
    f32 values, and only names of columns that exist, are created. *)
Theorem c61_python_created : forall order, enumerates order ->
  forall parse dict_order, (forall l, Permutation (dict_order l) l) ->
  forall name columns bounds generated,
  NoDup (map fst bounds) -> NoDup (map fst generated) ->
  (exists m, python_create order parse dict_order name columns bounds generated = Ok m)
  <-> acceptable parse columns generated
      /\ incl (map fst bounds) (map fst columns) /\ incl (map fst generated) (map fst columns)
      /\ Forall (fun b => valid_in_python (snd b) /\ ~ not_an_f32 (snd b)) bounds.
Proof. exact python_accepted. Qed.
Print Assumptions c61_python_created.

Example c61_python_example : NoDup (map fst bounds_w) /\ NoDup (map fst generated_w)
  /\ acceptable parse_w columns_w generated_w
  /\ incl (map fst bounds_w) (map fst columns_w) /\ incl (map fst generated_w) (map fst columns_w)
  /\ Forall (fun b => valid_in_python (snd b) /\ ~ not_an_f32 (snd b)) bounds_w
  /\ (forall l, Permutation (reversed l) l).
Proof.
  destruct python_case as (A & B & C & D).
  split. { constructor; [intros [H|[]]; discriminate|]. constructor; [intros []|constructor]. }
  split. { constructor; [intros []|constructor]. }
  split; [exact A|]. split; [exact B|]. split; [exact C|]. split; [exact D|exact reversed_ok].
Qed.

(** The process is aborted exactly if all error bounds are valid but one of them is zero or infinite
    as an f32 value, and only names of columns that exist are used. *)
Theorem c61_python_aborts_iff : forall order, enumerates order ->
  forall parse dict_order, (forall l, Permutation (dict_order l) l) ->
  forall name columns bounds generated,
  (forall text, parse text <> Panic) -> NoDup (map fst columns) ->
  NoDup (map fst bounds) -> NoDup (map fst generated) ->
  python_create order parse dict_order name columns bounds generated = Panic
  <-> incl (map fst bounds) (map fst columns) /\ incl (map fst generated) (map fst columns)
      /\ Forall (fun b => valid_in_python (snd b)) bounds
      /\ Exists (fun b => not_an_f32 (snd b)) bounds.
Proof. exact python_aborts. Qed.
Print Assumptions c61_python_aborts_iff.

(** So a valid error bound can abort the Python process. *)
Theorem c61_python_no_abort_refuted : exists parse columns generated small large,
  acceptable parse columns generated
  /\ Forall (fun b => valid_in_python b
       /\ forall order dict_order, enumerates order -> (forall l, Permutation (dict_order l) l) ->
            python_create order parse dict_order "table" columns [("wind", b)] generated = Panic)
       [AbsoluteErrorBound small; AbsoluteErrorBound large; RelativeErrorBound small].
Proof. exists parse_w, columns_w, generated_w, f64_least, f64_most. exact python_abort_case. Qed.
Print Assumptions c61_python_no_abort_refuted.

(** And the error bound of the table can be larger than the one that is asked for: 0.1 is. *)
Theorem c61_python_no_larger_refuted : exists order parse dict_order columns generated asked m e,
  enumerates order /\ (forall l, Permutation (dict_order l) l)
  /\ python_create order parse dict_order "table" columns
       [("wind", AbsoluteErrorBound asked)] generated = Ok m
  /\ nth_error (schema m) 2 = Some ("wind", Float32)
  /\ nth_error (error_bounds m) 2 = Some (Absolute e) /\ R64 asked < R32 e.
Proof.
  destruct larger_case as (m & e & H).
  exists same_order, parse_w, reversed, columns_w, generated_w, f64_tenth, m, e.
  split; [exact same_order_ok|]. split; [exact reversed_ok|exact H].
Qed.
Print Assumptions c61_python_no_larger_refuted.
