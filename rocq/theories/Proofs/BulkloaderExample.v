(** Imports with the bulk loader. *)
From Coq Require Import ZArith String List Bool Lia.
From Verif Require Import Model.Base Model.Float Model.ErrorBound Model.Segments Model.Multivariate
  Model.Bulkloader Spec.MultivariateSpec Spec.BulkloaderSpec Proofs.MacaqueVLossyProofs
  Proofs.MultivariateProofs Proofs.MultivariateExample Proofs.BulkloaderProofs.
Import ListNotations.
Open Scope Z_scope.

(** The data points of compressed data: tags, field, timestamp and value. *)
Definition points_of (l : list compressed) : list (list text * nat * Z * Z) :=
  flat_map (fun c => flat_map (fun s =>
    match grid exact_platform s with
    | Ok (ts, vs) => map (fun p => (co_tags c, co_field c, fst p, snd p)) (combine ts (map to_bits vs))
    | _ => []
    end) (co_segments c)) l.

Definition points (o : outcome (list compressed)) : outcome (list (list text * nat * Z * Z)) :=
  let? l := o in Ok (points_of l).

Definition raw_example (tag t v w : Z) : raw_row :=
  [Entry true (Number (f32_of_Z v)); Entry true (Str [tag]); Entry true (Instant t);
   Entry true (Wide (f64_of_Z w))].
Definition raw_columns : columns :=
  [("pressure", Half); ("station", View); ("time", Milliseconds); ("temperature", Double)]%string.
Definition raw_batches : list (list raw_row) :=
  [[raw_example 66 30 1 2; raw_example 65 10 3 4]; [raw_example 66 20 5 6]; [raw_example 65 20 7 8]].
Definition raw_stream : stream := Stream raw_columns (map Some raw_batches).

(** The memory is full after the second batch. *)
Definition environment_example : environment := Environment [false; true; false] [] true.

Lemma raw_hypotheses : Forall (good_batch example_table raw_columns) (st_batches raw_stream)
  /\ right_types true example_table raw_columns /\ bounded example_table
  /\ ready raw_columns (concat raw_batches).
Proof.
  assert (Hr : ready raw_columns (concat raw_batches)).
  { unfold ready, raw_batches. cbn [concat app].
    split; [|split]; repeat (apply Forall_cons || apply Forall_nil);
      unfold typed_row, raw_example, raw_columns;
      repeat (apply Forall2_cons || apply Forall2_nil || apply Forall_cons || apply Forall_nil);
      cbn [snd well_typed castable content valid]; try exact I; try reflexivity; unfold is_i64; lia. }
  split; [|split; [|split; [|exact Hr]]].
  - assert (H : forall rows, rows <> [] -> ready raw_columns rows ->
      good_batch example_table raw_columns (Some rows)).
    { intros rows Hn (H1 & H2 & H3). split; [exact Hn|]. split; [exact H1|]. now apply valid_no_null. }
    unfold raw_batches in Hr. cbn [concat app] in Hr.
    change (ready raw_columns ([raw_example 66 30 1 2; raw_example 65 10 3 4]
      ++ [raw_example 66 20 5 6] ++ [raw_example 65 20 7 8])) in Hr.
    rewrite !ready_app in Hr. destruct Hr as (H1 & H2 & H3).
    unfold raw_stream, raw_batches. cbn [map st_batches].
    repeat (apply Forall_cons || apply Forall_nil); apply H; auto; discriminate.
  - split; [|split].
    + intros c [<-|[]]. eexists. reflexivity.
    + eexists _, _. split; [reflexivity|auto].
    + intros c [<-|[<-|[]]]; eexists _, _; (split; [reflexivity|auto]).
  - intros c [<-|[<-|[]]]; cbn [length error_bounds example_table]; lia.
Qed.

Lemma raw_result :
  points (import_time_series_table exact_platform insertion_sort environment_example example_table true
            raw_stream)
  = let b z := to_bits (f32_of_Z z) in
    Ok [([[65]], 0%nat, 10000, b 3); ([[65]], 3%nat, 10000, b 4);
        ([[66]], 0%nat, 20000, b 5); ([[66]], 0%nat, 30000, b 1);
        ([[66]], 3%nat, 20000, b 6); ([[66]], 3%nat, 30000, b 2);
        ([[65]], 0%nat, 20000, b 7); ([[65]], 3%nat, 20000, b 8)].
Proof. vm_compute. reflexivity. Qed.

(** A null in a field column. *)
Definition null_stream : stream :=
  Stream [("pressure", Single); ("station", View); ("time", Microseconds); ("temperature", Single)]%string
    [Some [[Entry true (Number (f32_of_Z 7)); Entry true (Str [65]); Entry true (Instant 10);
            Entry false (Number (f32_of_Z 0))]]].

Lemma null_stored :
  points (import_time_series_table exact_platform insertion_sort environment_example example_table false
            null_stream)
  = Ok [([[65]], 0%nat, 10, to_bits (f32_of_Z 7)); ([[65]], 3%nat, 10, to_bits (f32_of_Z 0))].
Proof. vm_compute. reflexivity. Qed.

(** Columns with other names. *)
Lemma import_clear_names : forall P lexsort t cs cs' ok current written, map snd cs = map snd cs' ->
  import_and_clear P lexsort t cs ok current written = import_and_clear P lexsort t cs' ok current written.
Proof.
  intros P lexsort t cs cs' ok current written H. unfold import_and_clear.
  assert (E : forall ty c, type_is cs ty c = type_is cs' ty c).
  { intros ty c. unfold type_is. assert (E : nth_error (map snd cs) c = nth_error (map snd cs') c) by now rewrite H.
    rewrite !nth_error_map in E.
    destruct (nth_error cs c) as [[n x]|], (nth_error cs' c) as [[n' x']|]; cbn [option_map snd] in E;
      try discriminate E; [|reflexivity]. assert (x' = x) by congruence. now subst x'. }
  assert (Ef : forall ty l, forallb (type_is cs ty) l = forallb (type_is cs' ty) l).
  { intros ty l. induction l as [|c l IH]; cbn [forallb]; [reflexivity|]. now rewrite E, IH. }
  unfold has_types. rewrite !E, !Ef. reflexivity.
Qed.

Lemma cast_rows_names : forall cast cs cs' rows, map snd cs = map snd cs' ->
  cast_rows cast cs rows = cast_rows cast cs' rows.
Proof.
  intros cast cs cs' rows H.
  assert (E : forall r, cast_row cast cs r = cast_row cast cs' r).
  { revert cs' H. induction cs as [|[n ty] cs IH]; intros [|[n' ty'] cs'] H r; try discriminate H; [reflexivity|].
    cbn [map snd] in H. assert (ty' = ty /\ map snd cs = map snd cs') as [-> H'] by (split; congruence).
    destruct r as [|e r]; [reflexivity|]. cbn [cast_row]. now rewrite (IH cs' H' r). }
  induction rows as [|r rows IH]; [reflexivity|]. cbn [cast_rows]. now rewrite E, IH.
Qed.

Lemma names_ignored : forall P lexsort env t cast cs cs' batches, map snd cs = map snd cs' ->
  import_time_series_table P lexsort env t cast (Stream cs batches)
  = import_time_series_table P lexsort env t cast (Stream cs' batches).
Proof.
  intros P lexsort env t cast cs cs' batches H. unfold import_time_series_table. cbn [st_columns st_batches].
  assert (E : forall batches full oks current written,
    import_loop P lexsort t cast cs full oks batches current written
    = import_loop P lexsort t cast cs' full oks batches current written).
  { assert (Hc : map snd (cast_columns cast cs) = map snd (cast_columns cast cs')).
    { unfold cast_columns. rewrite !map_map. cbn [snd].
      rewrite <- !(map_map snd (cast_type cast)). now rewrite H. }
    clear - H Hc. induction batches as [|[rows|] batches IH]; intros full oks current written; cbn [import_loop].
    - now apply import_clear_names.
    - rewrite <- (cast_rows_names cast cs cs' rows H). destruct (cast_rows cast cs rows) as [casted|]; [|reflexivity].
      destruct (hd false full); [|apply IH].
      rewrite <- (import_clear_names P lexsort t _ _ (hd true oks) (current ++ [casted]) written Hc).
      destruct (import_and_clear _ _ _ _ _ _ _); cbn [bind]; auto.
    - reflexivity. }
  now rewrite E.
Qed.

Definition exchanged_columns : columns :=
  [("temperature", Single); ("station", View); ("time", Microseconds); ("pressure", Single)]%string.
Definition named_columns : columns :=
  [("pressure", Single); ("station", View); ("time", Microseconds); ("temperature", Single)]%string.
Definition named_row : raw_row :=
  [Entry true (Number (f32_of_Z 7)); Entry true (Str [65]); Entry true (Instant 10);
   Entry true (Number (f32_of_Z 20))].

Lemma exchanged_stored :
  points (import_time_series_table exact_platform insertion_sort environment_example example_table false
            (Stream exchanged_columns [Some [named_row]]))
  = Ok [([[65]], 0%nat, 10, to_bits (f32_of_Z 7)); ([[65]], 3%nat, 10, to_bits (f32_of_Z 20))].
Proof. vm_compute. reflexivity. Qed.

(** A file in the folder "station=A". *)
Definition partitioned_stream : stream :=
  Stream [("pressure", Single); ("station", Utf8); ("time", Microseconds); ("temperature", Single)]%string
    [Some [named_row]].
Lemma partitioned_panics :
  import_time_series_table exact_platform insertion_sort environment_example example_table false
    partitioned_stream = Panic.
Proof. vm_compute. reflexivity. Qed.
