(** Proofs about writing rows to tables. *)
From Coq Require Import ZArith Bool Ascii String List Lia.
From Verif Require Import Model.Base Model.Sql Model.Writes Spec.WriteSpec.
Import ListNotations.
Open Scope string_scope.
Open Scope list_scope.

(** Tables. *)
Lemma lookup_replace : forall ts x t y, lookup x ts <> None ->
  lookup y (replace x t ts) = if String.eqb y x then Some t else lookup y ts.
Proof.
  induction ts as [|(z, u) ts IH]; intros x t y L; [contradiction|]. cbn [lookup replace] in *.
  destruct (String.eqb_spec z x) as [->|N].
  - cbn [lookup]. destruct (String.eqb_spec x y) as [->|N]; [now rewrite String.eqb_refl|].
    destruct (String.eqb_spec y x) as [->|]; [contradiction|reflexivity].
  - cbn [lookup]. destruct (String.eqb_spec z y) as [->|M].
    + destruct (String.eqb_spec y x) as [->|]; [contradiction|reflexivity].
    + now apply IH.
Qed.
Lemma replace_names : forall ts x t, map fst (replace x t ts) = map fst ts.
Proof.
  induction ts as [|(z, u) ts IH]; intros x t; [reflexivity|]. cbn [replace].
  destruct (String.eqb z x); cbn [map fst]; [reflexivity|]. now rewrite IH.
Qed.

(** A table that got rows. *)
Definition grows (t t' : table) (part : list row) : Prop :=
  series t' = series t /\ query_columns t' = query_columns t /\ stored t' = stored t ++ part.
Lemma grows_refl : forall t, grows t t [].
Proof. intros t. split; [reflexivity|]. split; [reflexivity|]. now rewrite app_nil_r. Qed.
Lemma grows_trans : forall a b c p q, grows a b p -> grows b c q -> grows a c (p ++ q).
Proof.
  intros a b c p q (A1 & A2 & A3) (B1 & B2 & B3). split; [congruence|]. split; [congruence|].
  now rewrite B3, A3, app_assoc.
Qed.
Lemma grows_add : forall t rs, grows t (add_rows rs t) rs.
Proof. intros t rs. split; [reflexivity|]. split; reflexivity. Qed.

Definition progress (f : row -> row) (t t' : table) (r : outcome unit) (all : list row) : Prop :=
  exists part rest, all = part ++ rest /\ grows t t' (map f part) /\ (r = Ok tt -> rest = [])
    /\ r <> Panic.
Lemma progress_none : forall f t all, progress f t t Err all.
Proof.
  intros f t all. exists [], all. split; [reflexivity|]. split; [apply grows_refl|].
  split; discriminate.
Qed.
Lemma progress_all : forall f t rs r, r <> Panic -> progress f t (add_rows (map f rs) t) r rs.
Proof.
  intros f t rs r N. exists rs, []. split; [now rewrite app_nil_r|]. split; [apply grows_add|].
  split; [reflexivity|exact N].
Qed.
Lemma progress_then : forall f t t1 t2 r a b, progress f t t1 (Ok tt) a -> progress f t1 t2 r b ->
  progress f t t2 r (a ++ b).
Proof.
  intros f t t1 t2 r a b (p & q & -> & G & E & _) (p' & q' & -> & G' & E' & N). rewrite (E eq_refl).
  exists (p ++ p'), q'. split; [now rewrite app_nil_r, app_assoc|]. split.
  - rewrite map_app. now apply (grows_trans _ t1).
  - now split.
Qed.
Lemma progress_stops : forall f t t' r a b, progress f t t' r a -> r <> Ok tt ->
  progress f t t' r (a ++ b).
Proof.
  intros f t t' r a b (p & q & -> & G & _ & N) R. exists p, (q ++ b).
  split; [now rewrite app_assoc|]. split; [exact G|]. split; [intros X; contradiction|exact N].
Qed.
Lemma progress_names : forall f t t' r all, progress f t t' r all ->
  series t' = series t /\ query_columns t' = query_columns t.
Proof. intros f t t' r all (p & q & _ & (G1 & G2 & _) & _). now split. Qed.

(** Rows without nulls. *)
Lemma taken_valid : forall r, Forall (fun e => valid e = true) r -> taken r = r.
Proof.
  intros r F. induction F as [|e r E F IH]; [reflexivity|]. unfold taken in *. cbn [map]. rewrite IH.
  destruct e as [v c]. cbn [valid] in E. now subst v.
Qed.
Lemma taken_rows : forall rs, all_valid rs -> map taken rs = rs.
Proof.
  intros rs F. induction F as [|r rs E F IH]; [reflexivity|]. cbn [map]. now rewrite IH, taken_valid.
Qed.
Lemma valid_timestamps : forall cs r, Forall (fun e => valid e = true) r -> null_timestamp cs r = false.
Proof.
  induction cs as [|c cs IH]; intros r F; [reflexivity|]. destruct F as [|e r E F]; [reflexivity|].
  cbn [null_timestamp]. rewrite E, IH by exact F. now rewrite andb_false_r.
Qed.
Lemma valid_rows : forall cs rs, all_valid rs -> existsb (null_timestamp cs) rs = false.
Proof.
  intros cs rs F. induction F as [|r rs E F IH]; [reflexivity|]. cbn [existsb].
  now rewrite IH, valid_timestamps.
Qed.
Lemma valid_app : forall a b, all_valid (a ++ b) -> all_valid a /\ all_valid b.
Proof. intros a b. unfold all_valid. apply Forall_app. Qed.
Lemma valid_project : forall query r, Forall (fun e => valid e = true) r ->
  Forall (fun e => valid e = true) (project query r).
Proof.
  induction query as [|(c, g) query IH]; intros r F; [constructor|]. destruct F as [|e r E F]; [constructor|].
  cbn [project]. destruct g; [now apply IH|]. constructor; [exact E|now apply IH].
Qed.
Lemma valid_projected : forall query rs, all_valid rs -> all_valid (map (project query) rs).
Proof.
  intros query rs F. unfold all_valid. apply Forall_map. eapply Forall_impl; [|exact F].
  intros r. apply valid_project.
Qed.

(** One batch. *)
Lemma write_progress : forall f t batches, let (t', r) := write_record_batches f batches t in
  progress (fun r => r) t t' r (concat batches).
Proof.
  intros f t batches. unfold write_record_batches.
  destruct f; try (pose proof (progress_all (fun r => r) t (concat batches)) as P; rewrite map_id in P;
                   apply P; discriminate).
  apply progress_none.
Qed.
Lemma insert_progress : forall f rs t, (series t = true -> all_valid rs) ->
  let (t', r) := insert_batch f rs t in progress (fun r => r) t t' r rs.
Proof.
  intros f rs t V. pose proof (progress_all (fun r => r) t rs) as P. rewrite map_id in P.
  unfold insert_batch. destruct (series t) eqn:S.
  - unfold insert_data_points, ingest. rewrite valid_rows, taken_rows by now apply V.
    destruct f; try (apply P; discriminate). apply progress_none.
  - unfold insert_record_batch, write_record_batches. cbn [concat]. rewrite app_nil_r.
    destruct f; try (apply P; discriminate). apply progress_none.
Qed.

Section Proofs.
Variable mismatched : list column -> message -> outcome (list row).

(** Messages. *)
Lemma layouts_refl : forall l, layouts_eqb l l = true.
Proof.
  induction l as [|x l IH]; [reflexivity|]. cbn [layouts_eqb]. rewrite IH. now destruct x.
Qed.
Lemma chunks_all : forall sizes rs, concat (chunks sizes rs) = rs.
Proof.
  induction sizes as [|n sizes IH]; intros rs; cbn [chunks].
  - cbn [concat]. apply app_nil_r.
  - destruct (skipn n rs) as [|r rest] eqn:E; cbn [concat]; [apply app_nil_r|].
    rewrite IH, <- E. apply firstn_skipn.
Qed.
Lemma messages_progress : forall ms faults t ls,
  ls = map (fun c => layout_of (type c)) (schema_of t) ->
  (series t = true -> all_valid (concat ms)) ->
  let (t', r) := ingest_into_table mismatched faults (map (Message ls) ms) t in
  progress (fun r => r) t t' r (concat ms).
Proof.
  induction ms as [|rs ms IH]; intros faults t ls L V; cbn [map ingest_into_table concat].
  - pose proof (progress_all (fun r => r) t []) as P. cbn [map] in P. unfold add_rows in P.
    rewrite app_nil_r in P. destruct t. apply P. discriminate.
  - unfold decode. cbn [layouts body]. rewrite L, layouts_refl.
    destruct (forallb (nulls_allowed (schema_of t)) rs); [|apply progress_none].
    assert (Va : series t = true -> all_valid rs /\ all_valid (concat ms)).
    { intros S. apply valid_app. now apply V. }
    pose proof (insert_progress (hd No_fault faults) rs t (fun S => proj1 (Va S))) as P.
    destruct (insert_batch (hd No_fault faults) rs t) as (t1, r1). destruct r1 as [[]| |].
    + destruct (progress_names _ _ _ _ _ P) as (N1 & N2). rewrite <- L.
      specialize (IH (tl faults) t1 ls). unfold schema_of in *. rewrite N2 in IH.
      specialize (IH L). rewrite N1 in IH. specialize (IH (fun S => proj2 (Va S))).
      destruct (ingest_into_table mismatched (tl faults) (map (Message ls) ms) t1) as (t2, r2).
      now apply (progress_then _ _ t1).
    + apply progress_stops; [exact P|discriminate].
    + apply progress_stops; [exact P|discriminate].
Qed.

(** INSERT. *)
Lemma insert_all_progress : forall data faults t,
  (series t = true -> all_valid (concat (until_error data))) ->
  let (t', r) := write_all faults data t in
  progress (if series t then project (query_columns t) else fun r => r) t t' r
    (concat (until_error data)).
Proof.
  induction data as [|[rs|] data IH]; intros faults t V; cbn [write_all until_error concat].
  - pose proof (progress_all (if series t then project (query_columns t) else fun r => r) t []) as P.
    cbn [map] in P. unfold add_rows in P. rewrite app_nil_r in P. destruct t. apply P. discriminate.
  - assert (Va : series t = true -> all_valid rs /\ all_valid (concat (until_error data))).
    { intros S. apply valid_app. now apply V. }
    assert (P : forall f, series t && negb (forallb (nulls_allowed (schema_of t))
                  (if series t then map (project (query_columns t)) rs else rs)) = false ->
                let (t', r) := insert_batch f
                  (if series t then map (project (query_columns t)) rs else rs) t in
                progress (if series t then project (query_columns t) else fun r => r) t t' r rs).
    { intros f _. pose proof (insert_progress f
        (if series t then map (project (query_columns t)) rs else rs) t) as I.
      destruct (series t) eqn:S.
      - specialize (I (fun _ => valid_projected _ _ (proj1 (Va eq_refl)))).
        destruct (insert_batch f (map (project (query_columns t)) rs) t) as (t1, r1).
        destruct I as (p & q & E & G & O & N). rewrite map_id in G.
        apply map_eq_app in E. destruct E as (p' & q' & -> & <- & <-).
        exists p', q'. split; [reflexivity|]. split; [exact G|]. split; [|exact N].
        intros X. specialize (O X). now destruct q'.
      - apply I. discriminate. }
    destruct (series t && _) eqn:B; [apply progress_none|]. specialize (P (hd No_fault faults) eq_refl).
    destruct (insert_batch _ _ t) as (t1, r1). destruct r1 as [[]| |].
    + destruct (progress_names _ _ _ _ _ P) as (N1 & N2). specialize (IH (tl faults) t1).
      rewrite N1, N2 in IH. specialize (IH (fun S => proj2 (Va S))).
      destruct (write_all (tl faults) data t1) as (t2, r2). now apply (progress_then _ _ t1).
    + apply progress_stops; [exact P|discriminate].
    + apply progress_stops; [exact P|discriminate].
  - apply progress_none.
Qed.

(** Columns with the same names and types. *)
Lemma described_same : forall a b r, same_columns a b -> described a r = described b r.
Proof.
  induction a as [|c a IH]; intros [|d b] r (N & T); try discriminate; [reflexivity|].
  cbn [map] in *. injection N as N1 N2. injection T as T1 T2. destruct r as [|e r]; [reflexivity|].
  cbn [described]. rewrite N1, T1. f_equal. apply IH. now split.
Qed.
Lemma contents_same : forall a b rs, same_columns a b -> contents a rs = contents b rs.
Proof. intros a b rs S. apply map_ext. intros r. now apply described_same. Qed.
Lemma described_nil : forall cs, described cs [] = [].
Proof. now intros [|c cs]. Qed.
Lemma projected : forall query r,
  described (map fst (filter (fun c => negb (snd c)) query)) (project query r)
  = map snd (filter (fun p : column * bool * (string * value) => negb (snd (fst p)))
               (combine query (described (map fst query) r))).
Proof.
  induction query as [|(c, g) query IH]; intros r; [reflexivity|]. destruct r as [|e r].
  - cbn [project]. now rewrite !described_nil.
  - cbn [project map fst described combine filter snd]. destruct g; cbn [negb map fst snd described].
    + apply IH.
    + now rewrite IH.
Qed.
Lemma projected_plain : forall query r, forallb (fun c : column * bool => negb (snd c)) query = true ->
  described (map fst (filter (fun c => negb (snd c)) query)) (project query r)
  = described (map fst (filter (fun c => negb (snd c)) query)) r.
Proof.
  induction query as [|(c, g) query IH]; intros r F; [reflexivity|]. cbn [forallb snd] in F.
  apply andb_prop in F. destruct F as (F1 & F2). cbn [filter snd]. rewrite F1. destruct g; [discriminate|].
  destruct r as [|e r]; [reflexivity|]. cbn [map fst project described]. now rewrite IH.
Qed.

Lemma grows_contents : forall t t' part, grows t t' part ->
  table_contents t' = table_contents t ++ contents (schema_of t) part.
Proof.
  intros t t' part (_ & Q & E). unfold table_contents, contents. rewrite E. unfold schema_of. rewrite Q.
  apply map_app.
Qed.

(** The effect of a request on the tables. *)
Definition did (r : request) (ts ts' : tables) (answer : outcome unit) (all : list row) : Prop :=
  only_rows (table_of r) ts ts' /\ answer <> Panic
  /\ exists part rest, all = part ++ rest /\ (answer = Ok tt -> rest = []) /\ added r part ts ts'.
Lemma only_rows_refl : forall x ts, only_rows x ts ts.
Proof.
  intros x ts. split; [reflexivity|]. split; [reflexivity|]. intros t L. exists t. auto.
Qed.
Lemma only_rows_trans : forall x a b c, only_rows x a b -> only_rows x b c -> only_rows x a c.
Proof.
  intros x a b c (A1 & A2 & A3) (B1 & B2 & B3). split; [congruence|]. split.
  - intros y N. now rewrite B2, A2.
  - intros t L. destruct (A3 t L) as (t1 & L1 & S1 & Q1). destruct (B3 t1 L1) as (t2 & L2 & S2 & Q2).
    exists t2. split; [exact L2|]. split; congruence.
Qed.
Lemma only_rows_replace : forall x ts t t', lookup x ts = Some t -> series t' = series t ->
  query_columns t' = query_columns t -> only_rows x ts (replace x t' ts).
Proof.
  intros x ts t t' L S Q. assert (N : lookup x ts <> None) by congruence. split; [apply replace_names|].
  split.
  - intros y M. rewrite lookup_replace by exact N. destruct (String.eqb_spec y x); [contradiction|reflexivity].
  - intros u L'. exists t'. rewrite lookup_replace, String.eqb_refl by exact N.
    assert (u = t) as -> by congruence. auto.
Qed.
Lemma added_none : forall r ts, added r [] ts ts.
Proof.
  intros r ts t t' L L'. assert (t' = t) as -> by congruence.
  assert (wanted r t [] = []) as -> by now destruct r. now rewrite app_nil_r.
Qed.
Lemma did_nothing : forall r ts all, did r ts ts Err all.
Proof.
  intros r ts all. split; [apply only_rows_refl|]. split; [discriminate|]. exists [], all.
  split; [reflexivity|]. split; [discriminate|apply added_none].
Qed.

Lemma wanted_plain : forall r t part, suits r t -> (forall fs x d, r <> Insert fs x d) ->
  wanted r t part = contents (schema_of t) part.
Proof.
  intros r t part S N. destruct r; cbn [wanted suits] in *; try (now apply contents_same).
  now exfalso; eapply N.
Qed.
Lemma wanted_insert : forall fs x d t part,
  (series t = false -> forallb (fun c => negb (snd c)) (query_columns t) = true) ->
  wanted (Insert fs x d) t part
  = contents (schema_of t) (map (if series t then project (query_columns t) else fun r => r) part).
Proof.
  intros fs x d t part P. cbn [wanted columns_of]. unfold contents. rewrite !map_map. apply map_ext.
  intros r. unfold without_generated, schema_of. rewrite <- projected.
  destruct (series t); [reflexivity|]. now apply projected_plain, P.
Qed.

(** From one table to the tables. *)
Lemma did_table : forall r f ts t t' answer all, lookup (table_of r) ts = Some t ->
  progress f t t' answer all ->
  (forall part, wanted r t part = contents (schema_of t) (map f part)) ->
  did r ts (replace (table_of r) t' ts) answer all.
Proof.
  intros r f ts t t' answer all L (p & q & -> & G & O & N) W. destruct G as (G1 & G2 & G3).
  split; [now apply (only_rows_replace _ _ t)|]. split; [exact N|]. exists p, q. split; [reflexivity|].
  split; [exact O|]. intros u u' Lu Lu'. assert (u = t) as -> by congruence.
  rewrite lookup_replace, String.eqb_refl in Lu' by congruence. assert (u' = t') as -> by congruence.
  rewrite W. apply grows_contents. now split.
Qed.

Lemma write_did : forall f x b ts t, lookup x ts = Some t -> same_columns (columns b) (schema_of t) ->
  (series t = true -> all_valid (rows b)) ->
  let (ts', answer) := data_folder_write f x b ts in
  did (Folder_write f x b) ts ts' answer (rows b).
Proof.
  intros f x b ts t L S V. unfold data_folder_write. destruct (rows b) as [|r0 rs0] eqn:R; [apply did_nothing|].
  rewrite <- R in *. clear R. rewrite L. destruct (schemas_are_compatible _ _); [|apply did_nothing].
  assert (E : (if series t then map taken (rows b) else rows b) = rows b).
  { destruct (series t); [now apply taken_rows, V|reflexivity]. }
  rewrite E. pose proof (write_progress f t [rows b]) as P. cbn [concat] in P. rewrite app_nil_r in P.
  destruct (write_record_batches f [rows b] t) as (t', answer).
  apply (did_table (Folder_write f x b) (fun r => r) ts t); [exact L|exact P|].
  intros part. rewrite map_id. apply wanted_plain; [exact S|discriminate].
Qed.
Lemma client_did : forall sizes fs x b ts t, lookup x ts = Some t -> lower x ->
  same_columns (columns b) (schema_of t) -> (series t = true -> all_valid (rows b)) ->
  let (ts', answer) := client_write mismatched sizes fs x b ts in
  did (Client_write sizes fs x b) ts ts' answer (rows b).
Proof.
  intros sizes fs x b ts t L Lo S V. unfold client_write, do_put. rewrite Lo, L.
  pose proof (messages_progress (chunks sizes (rows b)) fs t
                (map (fun c => layout_of (type c)) (columns b))) as P.
  rewrite chunks_all in P. specialize (P ltac:(
    rewrite <- (map_map type layout_of (columns b)), <- (map_map type layout_of (schema_of t));
    now rewrite (proj2 S)) V).
  destruct (ingest_into_table _ _ _ t) as (t', answer).
  apply (did_table (Client_write sizes fs x b) (fun r => r) ts t); [exact L|exact P|].
  intros part. rewrite map_id. apply wanted_plain; [exact S|discriminate].
Qed.

(** Copies made by a client. *)
Lemma added_change : forall r r' rs ts ts', table_of r = table_of r' ->
  (forall t, wanted r t rs = wanted r' t rs) -> added r rs ts ts' -> added r' rs ts ts'.
Proof. intros r r' rs ts ts' X W A t t' L L'. rewrite <- W. rewrite <- X in *. now apply A. Qed.
Lemma added_then : forall r a b ts1 ts2 ts3, only_rows (table_of r) ts1 ts2 ->
  (forall t t' rs, query_columns t' = query_columns t -> wanted r t' rs = wanted r t rs) ->
  (forall t, wanted r t (a ++ b) = wanted r t a ++ wanted r t b) ->
  added r a ts1 ts2 -> added r b ts2 ts3 -> added r (a ++ b) ts1 ts3.
Proof.
  intros r a b ts1 ts2 ts3 (_ & _ & O) Wq Wa A B t t' L L'. destruct (O t L) as (t2 & L2 & _ & Q2).
  rewrite (B t2 t' L2 L'), (A t t2 L L2), Wa, (Wq t t2 b Q2). now rewrite app_assoc.
Qed.
Lemma copy_did : forall data to fs x cs ts t, lookup x ts = Some t -> lower x ->
  same_columns cs (schema_of t) -> (series t = true -> all_valid (concat (until_error data))) ->
  let (ts', answer) := client_copy mismatched to fs x cs data ts in
  did (Client_copy to fs x cs data) ts ts' answer (concat (until_error data)).
Proof.
  intros data. induction data as [|[rs|] data IH]; intros to fs x cs ts t L Lo S V;
    cbn [client_copy until_error concat].
  - split; [apply only_rows_refl|]. split; [discriminate|]. exists [], [].
    split; [reflexivity|]. split; [reflexivity|apply added_none].
  - assert (Va : series t = true -> all_valid rs /\ all_valid (concat (until_error data))).
    { intros X. apply valid_app. now apply V. }
    assert (D : let (ts', answer) := write_to mismatched to (hd [] fs) x (Batch cs rs) ts in
                did (Client_copy to fs x cs (Some rs :: data)) ts ts' answer rs).
    { assert (C : forall r ts' answer, table_of r = x ->
                (forall u part, wanted r u part = contents cs part) -> did r ts ts' answer rs ->
                did (Client_copy to fs x cs (Some rs :: data)) ts ts' answer rs).
      { intros r ts' answer X W (O & N & p & q & E & Q & A). rewrite X in O. split; [exact O|].
        split; [exact N|]. exists p, q. split; [exact E|]. split; [exact Q|].
        apply (added_change r); [exact X| |exact A]. intros u. rewrite W. reflexivity. }
      destruct to as [|sizes]; cbn [write_to].
      - pose proof (write_did (hd No_fault (hd [] fs)) x (Batch cs rs) ts t L S (fun X => proj1 (Va X))) as D.
        destruct (data_folder_write _ _ _ _) as (ts', answer). revert D. apply C; reflexivity.
      - pose proof (client_did (hd [] sizes) (hd [] fs) x (Batch cs rs) ts t L Lo S
                      (fun X => proj1 (Va X))) as D.
        destruct (client_write _ _ _ _ _ _) as (ts', answer). revert D. apply C; reflexivity. }
    destruct (write_to mismatched to (hd [] fs) x (Batch cs rs) ts) as (ts1, r1).
    destruct D as (O & N & p & q & E & Q & A).
    destruct r1 as [[]| |].
    + rewrite (Q eq_refl), app_nil_r in E. subst p. pose proof O as (_ & _ & O3).
      destruct (O3 t L) as (t1 & L1 & S1 & Q1).
      specialize (IH (next_target to) (tl fs) x cs ts1 t1 L1 Lo).
      unfold schema_of in *. rewrite Q1, S1 in IH. specialize (IH S (fun X => proj2 (Va X))).
      destruct (client_copy mismatched (next_target to) (tl fs) x cs data ts1) as (ts2, r2).
      destruct IH as (O' & N' & p' & q' & E' & Q' & A').
      split; [now apply (only_rows_trans _ _ ts1)|]. split; [exact N'|]. exists (rs ++ p'), q'.
      split; [rewrite E'; now rewrite app_assoc|]. split; [exact Q'|].
      apply (added_then _ _ _ _ ts1); [exact O|reflexivity| |exact A|].
      * intros u. apply map_app.
      * revert A'. apply added_change; reflexivity.
    + split; [exact O|]. split; [exact N|]. exists p, (q ++ concat (until_error data)).
      split; [rewrite E; now rewrite app_assoc|]. split; [discriminate|exact A].
    + contradiction.
  - apply did_nothing.
Qed.

Lemma columns_eqb_same : forall a b, columns_eqb a b = true -> same_columns a b.
Proof.
  induction a as [|c a IH]; intros [|d b] E; try discriminate; [now split|]. cbn [columns_eqb] in E.
  apply andb_prop in E. destruct E as (E & F). unfold column_eqb in E. apply andb_prop in E.
  destruct E as (E & _). apply andb_prop in E. destruct E as (E1 & E2). apply String.eqb_eq in E1.
  apply internal_column_type_dec_bl in E2. destruct (IH b F) as (N & T). split; cbn [map]; congruence.
Qed.
Lemma collect_all : forall data batches, collect data = Ok batches -> until_error data = batches.
Proof.
  induction data as [|[rs|] data IH]; intros batches E; cbn [collect until_error] in *.
  - now injection E as <-.
  - destruct (collect data) as [more| |]; try discriminate. cbn [bind] in E. injection E as <-.
    f_equal. now apply IH.
  - discriminate.
Qed.

(** Everything that is written is for the table. *)
Lemma performed : forall r ts t, lookup (table_of r) ts = Some t -> lower (table_of r) -> suits r t ->
  (series t = false -> forallb (fun c => negb (snd c)) (query_columns t) = true) ->
  (series t = true -> all_valid (concat (batches_of r))) ->
  let (ts', answer) := perform mismatched r ts in did r ts ts' answer (concat (batches_of r)).
Proof.
  intros r ts t L Lo S G V.
  destruct r as [f x b|sizes fs x b|fs x data|f x cs data|to fs x cs data];
    cbn [perform table_of batches_of suits columns_of concat] in *.
  - rewrite app_nil_r in *. now apply (write_did f x b ts t).
  - rewrite app_nil_r in *. now apply (client_did sizes fs x b ts t).
  - unfold insert_into. rewrite L. pose proof (insert_all_progress data fs t V) as P.
    destruct (write_all fs data t) as (t', answer).
    apply (did_table (Insert fs x data) _ ts t t' answer _ L P). intros part. now apply wanted_insert.
  - unfold data_folder_copy. rewrite L. destruct (series t); [apply did_nothing|].
    destruct (columns_eqb cs (schema_of t)) eqn:E; [|apply did_nothing].
    destruct (collect data) as [batches| |] eqn:C; [|apply did_nothing|apply did_nothing].
    rewrite (collect_all _ _ C). pose proof (write_progress f t batches) as P.
    destruct (write_record_batches f batches t) as (t', answer).
    apply (did_table (Folder_copy f x cs data) (fun r => r) ts t); [exact L|exact P|].
    intros part. rewrite map_id. apply wanted_plain; [exact S|discriminate].
  - now apply (copy_did data to fs x cs ts t).
Qed.
End Proofs.

(** Data folders write all rows or none. *)
Lemma folder_atomic : forall mismatched r ts ts', perform mismatched r ts = (ts', Err) ->
  (exists f x b, r = Folder_write f x b /\ f <> Reported)
  \/ (exists f x cs data, r = Folder_copy f x cs data /\ f <> Reported) ->
  forall x, lookup x ts' = lookup x ts.
Proof.
  assert (R : forall ts x t y, lookup x ts = Some t -> lookup y (replace x t ts) = lookup y ts).
  { intros ts x t y L. rewrite lookup_replace by congruence.
    destruct (String.eqb_spec y x) as [->|]; [now rewrite L|reflexivity]. }
  intros mismatched r ts ts' E [(f & x & b & -> & N)|(f & x & cs & data & -> & N)] y;
    cbn [perform] in E.
  - unfold data_folder_write in E. destruct (rows b); [now injection E as <-|].
    destruct (lookup x ts) as [t|] eqn:L; [|now injection E as <-].
    destruct (schemas_are_compatible _ _); [|now injection E as <-].
    destruct f; cbn [write_record_batches] in E; try discriminate; [|contradiction].
    injection E as <-. now apply R.
  - unfold data_folder_copy in E. destruct (lookup x ts) as [t|] eqn:L; [|now injection E as <-].
    destruct (series t); [now injection E as <-|].
    destruct (columns_eqb _ _); [|now injection E as <-].
    destruct (collect data); [|now injection E as <-|now injection E as <-].
    destruct f; cbn [write_record_batches] in E; try discriminate; [|contradiction].
    injection E as <-. now apply R.
Qed.

(** Requests that succeed have read everything. *)
Lemma write_all_read : forall data faults t t', write_all faults data t = (t', Ok tt) -> ~ In None data.
Proof.
  induction data as [|[rs|] data IH]; intros faults t t' E; cbn [write_all] in E; [intros []| |discriminate].
  destruct (series t && _); [discriminate|]. destruct (insert_batch _ _ t) as (t1, [[]| |]); try discriminate.
  intros [X|X]; [discriminate|]. exact (IH _ _ _ E X).
Qed.
Lemma collect_read : forall data batches, collect data = Ok batches -> ~ In None data.
Proof.
  induction data as [|[rs|] data IH]; intros batches E; cbn [collect] in E; [intros []| |discriminate].
  destruct (collect data) as [more| |]; try discriminate. intros [X|X]; [discriminate|].
  exact (IH _ eq_refl X).
Qed.
Lemma copy_read : forall mismatched data to fs x cs ts ts',
  client_copy mismatched to fs x cs data ts = (ts', Ok tt) -> ~ In None data.
Proof.
  intros mismatched. induction data as [|[rs|] data IH]; intros to fs x cs ts ts' E;
    cbn [client_copy] in E; [intros []| |discriminate].
  destruct (write_to _ _ _ _ _ _) as (ts1, [[]| |]); try discriminate.
  intros [X|X]; [discriminate|]. exact (IH _ _ _ _ _ _ E X).
Qed.
Lemma success_read : forall mismatched r ts ts', perform mismatched r ts = (ts', Ok tt) -> readable r.
Proof.
  intros mismatched [f x b|sizes fs x b|fs x data|f x cs data|to fs x cs data] ts ts' E;
    cbn [perform readable] in *; try exact I.
  - unfold insert_into in E. destruct (lookup x ts) as [t|]; [|discriminate].
    destruct (write_all fs data t) as (t', answer) eqn:W. injection E as <- ->.
    exact (write_all_read _ _ _ _ W).
  - unfold data_folder_copy in E. destruct (lookup x ts) as [t|]; [|discriminate].
    destruct (series t); [discriminate|]. destruct (columns_eqb _ _); [|discriminate].
    destruct (collect data) as [batches| |] eqn:C; try discriminate. exact (collect_read _ _ C).
  - exact (copy_read _ _ _ _ _ _ _ _ E).
Qed.

Lemma written : forall mismatched r ts t ts', lookup (table_of r) ts = Some t -> lower (table_of r) ->
  suits r t ->
  (series t = false -> forallb (fun c => negb (snd c)) (query_columns t) = true) ->
  (series t = true -> all_valid (concat (batches_of r))) ->
  perform mismatched r ts = (ts', Ok tt) ->
  readable r /\ only_rows (table_of r) ts ts' /\ added r (concat (batches_of r)) ts ts'.
Proof.
  intros mismatched r ts t ts' L Lo S G V E. split; [exact (success_read _ _ _ _ E)|].
  pose proof (performed mismatched r ts t L Lo S G V) as P. rewrite E in P.
  destruct P as (O & _ & p & q & -> & Q & A). split; [exact O|]. rewrite (Q eq_refl), app_nil_r. exact A.
Qed.
Lemma part_written : forall mismatched r ts t ts' answer, lookup (table_of r) ts = Some t ->
  lower (table_of r) -> suits r t ->
  (series t = false -> forallb (fun c => negb (snd c)) (query_columns t) = true) ->
  (series t = true -> all_valid (concat (batches_of r))) ->
  perform mismatched r ts = (ts', answer) ->
  answer <> Panic /\ only_rows (table_of r) ts ts'
  /\ exists part rest, concat (batches_of r) = part ++ rest /\ added r part ts ts'.
Proof.
  intros mismatched r ts t ts' answer L Lo S G V E.
  pose proof (performed mismatched r ts t L Lo S G V) as P. rewrite E in P.
  destruct P as (O & N & p & q & E' & _ & A). split; [exact N|]. split; [exact O|]. now exists p, q.
Qed.

(** Requests that are accepted. *)
Lemma no_fault : forall fs, Forall (eq No_fault) fs -> hd No_fault fs = No_fault /\ Forall (eq No_fault) (tl fs).
Proof. intros fs F. destruct F as [|f fs E F]; [split; constructor|]. cbn. now split. Qed.
Lemma no_faults : forall fs, Forall (Forall (eq No_fault)) fs ->
  Forall (eq No_fault) (hd [] fs) /\ Forall (Forall (eq No_fault)) (tl fs).
Proof. intros fs F. destruct F as [|f fs E F]; cbn; [split; constructor|now split]. Qed.
Lemma nulls_none : forall cs r, Forall (fun e => valid e = true) r -> nulls_allowed cs r = true.
Proof.
  induction cs as [|c cs IH]; intros r F; [reflexivity|]. destruct F as [|e r E F]; [reflexivity|].
  cbn [nulls_allowed]. rewrite E, orb_true_r. now apply IH.
Qed.
Lemma nulls_none_all : forall cs rs, all_valid rs -> forallb (nulls_allowed cs) rs = true.
Proof.
  intros cs rs F. apply forallb_forall. intros r I. apply nulls_none.
  unfold all_valid in F. rewrite Forall_forall in F. now apply F.
Qed.
Lemma insert_accepted : forall rs t, all_valid rs ->
  exists t', insert_batch No_fault rs t = (t', Ok tt) /\ series t' = series t
    /\ query_columns t' = query_columns t.
Proof.
  intros rs t V. unfold insert_batch. destruct (series t) eqn:S.
  - unfold insert_data_points, ingest. rewrite valid_rows by exact V. eexists. split; [reflexivity|].
    now split.
  - unfold insert_record_batch, write_record_batches. eexists. split; [reflexivity|]. now split.
Qed.
Lemma messages_accepted : forall mismatched ms fs t ls,
  ls = map (fun c => layout_of (type c)) (schema_of t) -> all_valid (concat ms) ->
  Forall (eq No_fault) fs ->
  exists t', ingest_into_table mismatched fs (map (Message ls) ms) t = (t', Ok tt)
    /\ series t' = series t /\ query_columns t' = query_columns t.
Proof.
  intros mismatched. induction ms as [|rs ms IH]; intros fs t ls L V F.
  - exists t. now split.
  - cbn [map ingest_into_table concat] in *. unfold decode. cbn [layouts body].
    rewrite L, layouts_refl, <- L. destruct (valid_app _ _ V) as (V1 & V2).
    rewrite nulls_none_all by exact V1. destruct (no_fault fs F) as (-> & F').
    destruct (insert_accepted rs t V1) as (t1 & -> & S1 & Q1).
    destruct (IH (tl fs) t1 ls) as (t2 & -> & S2 & Q2).
    + unfold schema_of in *. now rewrite Q1.
    + exact V2.
    + exact F'.
    + exists t2. split; [reflexivity|]. split; congruence.
Qed.
Lemma write_all_accepted : forall data fs t, all_valid (concat (until_error data)) -> ~ In None data ->
  Forall (eq No_fault) fs -> exists t', write_all fs data t = (t', Ok tt).
Proof.
  induction data as [|[rs|] data IH]; intros fs t V N F; cbn [write_all until_error concat] in *.
  - now exists t.
  - destruct (valid_app _ _ V) as (V1 & V2). destruct (no_fault fs F) as (-> & F').
    assert (V' : all_valid (if series t then map (project (query_columns t)) rs else rs)).
    { destruct (series t); [now apply valid_projected|exact V1]. }
    rewrite nulls_none_all by exact V'. cbn [negb]. rewrite andb_false_r.
    destruct (insert_accepted _ t V') as (t1 & -> & _ & _). apply IH; [exact V2| |exact F'].
    intros X. apply N. now right.
  - exfalso. apply N. now left.
Qed.
Lemma compatible_fit : forall a b, schemas_are_compatible a b = true <-> fit a b.
Proof.
  induction a as [|c a IH]; intros [|d b]; cbn [schemas_are_compatible];
    try (split; intros H; [discriminate H|inversion H]; fail); [split; [constructor|reflexivity]|].
  rewrite !andb_true_iff, IH, negb_true_iff, andb_false_iff, negb_false_iff. split.
  - intros ((T & N) & F). constructor; [|exact F]. split; [now apply internal_column_type_dec_bl|].
    intros X. destruct N as [N|N]; [congruence|exact N].
  - intros H. inversion H as [|? ? ? ? (T & N) F]; subst. split; [|exact F].
    split; [now apply internal_column_type_dec_lb|]. destruct (nullable c); [right; now apply N|now left].
Qed.
Lemma columns_eqb_refl : forall cs, columns_eqb cs cs = true.
Proof.
  induction cs as [|c cs IH]; [reflexivity|]. cbn [columns_eqb]. rewrite IH. unfold column_eqb.
  rewrite String.eqb_refl, internal_column_type_dec_lb by reflexivity. now destruct (nullable c).
Qed.
Lemma collect_accepted : forall data, ~ In None data -> exists batches, collect data = Ok batches.
Proof.
  induction data as [|[rs|] data IH]; intros N; cbn [collect].
  - now exists [].
  - destruct IH as (batches & ->); [intros X; apply N; now right|]. now exists (rs :: batches).
  - exfalso. apply N. now left.
Qed.
Lemma folder_write_accepted : forall x b ts t, lookup x ts = Some t -> rows b <> [] ->
  fit (columns b) (schema_of t) ->
  exists t', data_folder_write No_fault x b ts = (replace x t' ts, Ok tt)
    /\ series t' = series t /\ query_columns t' = query_columns t.
Proof.
  intros x b ts t L N E. unfold data_folder_write. destruct (rows b) as [|r rs]; [contradiction|].
  rewrite L, (proj2 (compatible_fit _ _) E). cbn [write_record_batches]. eexists. split; [reflexivity|]. now split.
Qed.
Lemma same_layouts : forall a b, same_columns a b ->
  map (fun c => layout_of (type c)) a = map (fun c => layout_of (type c)) b.
Proof. intros a b (_ & T). rewrite <- (map_map type layout_of a), <- (map_map type layout_of b). now rewrite T. Qed.
Lemma client_write_accepted : forall mismatched sizes fs x b ts t, lookup x ts = Some t -> lower x ->
  same_columns (columns b) (schema_of t) -> all_valid (rows b) -> Forall (eq No_fault) fs ->
  exists t', client_write mismatched sizes fs x b ts = (replace x t' ts, Ok tt)
    /\ series t' = series t /\ query_columns t' = query_columns t.
Proof.
  intros mismatched sizes fs x b ts t L Lo S V F. unfold client_write, do_put. rewrite Lo, L.
  destruct (messages_accepted mismatched (chunks sizes (rows b)) fs t _ (same_layouts _ _ S)) as (t' & -> & Q).
  - now rewrite chunks_all.
  - exact F.
  - exists t'. now split.
Qed.
Lemma copy_accepted : forall mismatched data to fs x cs ts t, lookup x ts = Some t -> lower x ->
  same_columns cs (schema_of t) -> all_valid (concat (until_error data)) -> ~ In None data ->
  Forall (Forall (eq No_fault)) fs ->
  (to = Folder -> fit cs (schema_of t) /\ Forall (fun rs => rs <> []) (until_error data)) ->
  snd (client_copy mismatched to fs x cs data ts) = Ok tt.
Proof.
  intros mismatched. induction data as [|[rs|] data IH]; intros to fs x cs ts t L Lo S V N F T;
    cbn [client_copy until_error concat] in *; [reflexivity| |exfalso; apply N; now left].
  destruct (valid_app _ _ V) as (V1 & V2). destruct (no_faults fs F) as (F1 & F2).
  assert (W : exists t', write_to mismatched to (hd [] fs) x (Batch cs rs) ts = (replace x t' ts, Ok tt)
                /\ series t' = series t /\ query_columns t' = query_columns t).
  { destruct to as [|sizes]; cbn [write_to].
    - destruct (T eq_refl) as (E & NE). inversion NE as [|? ? NE1 NE2]; subst.
      rewrite (proj1 (no_fault _ F1)). now apply folder_write_accepted.
    - now apply client_write_accepted. }
  destruct W as (t' & -> & S' & Q').
  apply (IH _ _ _ _ _ t').
  - rewrite lookup_replace, String.eqb_refl by congruence. reflexivity.
  - exact Lo.
  - unfold schema_of in *. now rewrite Q'.
  - exact V2.
  - intros X. apply N. now right.
  - exact F2.
  - intros E. assert (to = Folder) as -> by (destruct to; [reflexivity|discriminate]).
    destruct (T eq_refl) as (Ft & NE). inversion NE; subst. split; [|assumption].
    unfold schema_of. now rewrite Q'.
Qed.
Lemma accepted : forall mismatched r ts t, lookup (table_of r) ts = Some t -> lower (table_of r) ->
  suits r t -> all_valid (concat (batches_of r)) -> readable r -> unhindered r t ->
  snd (perform mismatched r ts) = Ok tt.
Proof.
  intros mismatched [f x b|sizes fs x b|fs x data|f x cs data|to fs x cs data] ts t L Lo S V R U;
    cbn [perform table_of batches_of suits columns_of readable unhindered concat] in *.
  - destruct U as (-> & N & E). destruct (folder_write_accepted x b ts t L N E) as (t' & -> & _).
    reflexivity.
  - rewrite app_nil_r in V. destruct (client_write_accepted mismatched sizes fs x b ts t L Lo S V U) as (t' & -> & _).
    reflexivity.
  - unfold insert_into. rewrite L. destruct (write_all_accepted data fs t V R U) as (t' & ->). reflexivity.
  - destruct U as (-> & N & ->). unfold data_folder_copy. rewrite L, N, columns_eqb_refl.
    destruct (collect_accepted data R) as (batches & ->). reflexivity.
  - destruct U as (F & T). now apply (copy_accepted mismatched data to fs x cs ts t).
Qed.

(** What a data folder checks. *)
Lemma eqb_fit : forall a b, columns_eqb a b = true -> fit a b.
Proof.
  induction a as [|c a IH]; intros [|d b]; cbn [columns_eqb]; try discriminate; [constructor|].
  unfold column_eqb. rewrite !andb_true_iff. intros (((_ & T) & N) & F). constructor; [|now apply IH].
  split; [now apply internal_column_type_dec_bl|]. apply eqb_prop in N. congruence.
Qed.
Lemma fit_rows : forall a b r, fit a b -> row_fits a r -> row_fits b r.
Proof.
  intros a b r F. revert r. induction F as [|c d a b (T & N) F IH]; intros r H; inversion H; subst; constructor.
  - auto.
  - apply IH. assumption.
Qed.
Lemma folder_write_fit : forall f x b ts t ts', lookup x ts = Some t ->
  data_folder_write f x b ts = (ts', Ok tt) -> fit (columns b) (schema_of t).
Proof.
  intros f x b ts t ts' L E. unfold data_folder_write in E. destruct (rows b); [discriminate E|].
  rewrite L in E. destruct (schemas_are_compatible _ _) eqn:C; [|discriminate E]. now apply compatible_fit.
Qed.
Lemma checked : forall mismatched r ts t ts', lookup (table_of r) ts = Some t -> to_folder r ->
  perform mismatched r ts = (ts', Ok tt) ->
  fit (columns_of r t) (schema_of t)
  /\ (Forall (row_fits (columns_of r t)) (concat (batches_of r)) ->
      Forall (row_fits (schema_of t)) (concat (batches_of r))).
Proof.
  intros mismatched r ts t ts' L F E.
  assert (H : fit (columns_of r t) (schema_of t)).
  { destruct r as [f x b|sizes fs x b|fs x data|f x cs data|to fs x cs data]; cbn [to_folder] in F; try contradiction;
      cbn [perform table_of columns_of] in *.
    - exact (folder_write_fit f x b ts t ts' L E).
    - unfold data_folder_copy in E. rewrite L in E. destruct (series t); [discriminate E|].
      destruct (columns_eqb cs (schema_of t)) eqn:C; [|discriminate E]. now apply eqb_fit.
    - destruct F as (-> & N). cbn [batches_of] in N.
      destruct data as [|[rs|] data]; cbn [until_error concat] in N; try (exfalso; now apply N).
      cbn [client_copy write_to] in E.
      destruct (data_folder_write (hd No_fault (hd [] fs)) x (Batch cs rs) ts) as (ts1, [[]| |]) eqn:W; try discriminate E.
      exact (folder_write_fit _ x (Batch cs rs) ts t ts1 L W). }
  split; [exact H|]. apply Forall_impl. intros row. now apply fit_rows.
Qed.

(** The schema of a client is not used. *)
Lemma unchecked : forall mismatched sizes x b ts t, lookup x ts = Some t -> lower x ->
  map (fun c => layout_of (type c)) (columns b) = map (fun c => layout_of (type c)) (schema_of t) ->
  all_valid (rows b) ->
  exists ts' t', perform mismatched (Client_write sizes [] x b) ts = (ts', Ok tt)
    /\ lookup x ts' = Some t' /\ query_columns t' = query_columns t
    /\ stored t' = stored t ++ rows b.
Proof.
  intros mismatched sizes x b ts t L Lo E V. cbn [perform]. unfold client_write, do_put. rewrite Lo, L.
  pose proof (messages_progress mismatched (chunks sizes (rows b)) [] t _ E) as P.
  destruct (messages_accepted mismatched (chunks sizes (rows b)) [] t _ E) as (t' & A & _ & Q);
    rewrite ?chunks_all in *; [exact V|constructor|].
  rewrite A in *. exists (replace x t' ts), t'. split; [reflexivity|].
  split; [now rewrite lookup_replace, String.eqb_refl by congruence|]. split; [exact Q|].
  destruct (P (fun _ => V)) as (p & q & E' & (_ & _ & G) & O & _). rewrite (O eq_refl), app_nil_r in E'.
  rewrite map_id in G. now rewrite E'.
Qed.

(** What is not as it should be. *)
Lemma seconds : forall mismatched series z, (0 < z < 2 ^ 63)%Z ->
  let t := Table series [(Column "stamp" Microseconds false, false); (Column "power" Float32 false, false)] [] [] in
  let b := Batch [Column "stamp" Seconds false; Column "power" Float32 false] [[time z; number 0]] in
  contents (columns b) (rows b) = [[("stamp", Instant (1000000000 * z)); ("power", Single 0)]]
  /\ exists ts' t', perform mismatched (Client_write [] [] "wind" b) [("wind", t)] = (ts', Ok tt)
    /\ lookup "wind" ts' = Some t'
    /\ table_contents t' = [[("stamp", Instant (1000 * z)); ("power", Single 0)]].
Proof.
  intros mismatched series z B t b.
  assert (S : signed 64 z = z).
  { unfold signed. change (2 ^ (64 - 1))%Z with (2 ^ 63)%Z. destruct (Z.ltb_spec z (2 ^ 63)); lia. }
  split; [cbn [columns rows b contents map described name type meaning time number valid content]; now rewrite S|].
  destruct (unchecked mismatched [] "wind" b [("wind", t)] t) as (ts' & t' & E & L & Q & R);
    [reflexivity|reflexivity|reflexivity|repeat constructor|].
  exists ts', t'. split; [exact E|]. split; [exact L|]. unfold table_contents, schema_of. rewrite Q, R.
  cbn [t query_columns stored app b rows filter negb snd map fst contents described name type meaning
       time number valid content]. now rewrite S.
Qed.
Lemma renamed : forall mismatched y z,
  let t := plain [Column "speed" Float32 false; Column "power" Float32 false] in
  let b := Batch [Column "power" Float32 false; Column "speed" Float32 false] [[number y; number z]] in
  contents (columns b) (rows b) = [[("power", Single y); ("speed", Single z)]]
  /\ exists ts' t', perform mismatched (Folder_write No_fault "wind" b) [("wind", t)] = (ts', Ok tt)
    /\ lookup "wind" ts' = Some t'
    /\ table_contents t' = [[("speed", Single y); ("power", Single z)]].
Proof.
  intros mismatched y z t b. split; [reflexivity|]. eexists. eexists. split; [reflexivity|].
  split; reflexivity.
Qed.
Lemma split_batch : forall mismatched z,
  let t := plain [Column "power" Float32 false] in
  let b := Batch [Column "power" Float32 true] [[number z]; [Entry false (Word32 0)]] in
  exists ts' t', perform mismatched (Client_write [1] [] "wind" b) [("wind", t)] = (ts', Err)
    /\ lookup "wind" ts' = Some t' /\ table_contents t' = [[("power", Single z)]].
Proof. intros mismatched z t b. eexists. eexists. split; [reflexivity|]. split; reflexivity. Qed.
Lemma not_transferred : forall mismatched b cs, columns b = cs -> all_valid (rows b) ->
  exists ts' t', perform mismatched (Client_write [] [Not_transferred] "wind" b) [("wind", plain cs)] = (ts', Err)
    /\ lookup "wind" ts' = Some t' /\ table_contents t' = contents cs (rows b).
Proof.
  intros mismatched [cs' rs] cs E V. cbn [columns rows] in *. subst cs'. cbn [perform].
  assert (S : schema_of (plain cs) = cs).
  { unfold schema_of, plain. cbn [query_columns]. induction cs as [|c cs IH]; [reflexivity|].
    cbn [map filter snd negb fst]. now rewrite IH. }
  unfold client_write, do_put. cbn [columns rows chunks map]. change (map_string to_lower "wind") with "wind".
  cbn [lookup]. rewrite String.eqb_refl. cbn [ingest_into_table]. unfold decode. cbn [layouts body].
  rewrite S, layouts_refl, nulls_none_all by exact V. cbn [hd]. unfold insert_batch, insert_record_batch.
  cbn [plain series write_record_batches concat]. rewrite app_nil_r. eexists. eexists. split; [reflexivity|].
  cbn [replace]. rewrite String.eqb_refl. cbn [lookup]. rewrite String.eqb_refl. split; [reflexivity|].
  unfold table_contents. unfold add_rows, schema_of in *. cbn [query_columns stored plain app series] in *.
  now rewrite S.
Qed.
Lemma empty_batch : forall mismatched y z,
  let cs := [Column "power" Float32 false] in
  exists ts' t', perform mismatched (Client_copy Folder [] "wind" cs
      [Some [[number y]]; Some []; Some [[number z]]]) [("wind", plain cs)] = (ts', Err)
    /\ lookup "wind" ts' = Some t' /\ table_contents t' = [[("power", Single y)]].
Proof. intros mismatched y z cs. eexists. eexists. split; [reflexivity|]. split; reflexivity. Qed.
Lemma half_inserted : forall mismatched z,
  let t := time_series [Column "stamp" Microseconds false; Column "power" Float32 false] in
  exists ts' t', perform mismatched (Insert [] "wind" [Some [[time 0; number z]]; None]) [("wind", t)] = (ts', Err)
    /\ lookup "wind" ts' = Some t'
    /\ table_contents t' = [[("stamp", Instant 0); ("power", Single z)]].
Proof. intros mismatched z t. eexists. eexists. split; [reflexivity|]. split; reflexivity. Qed.
Lemma other_case : forall mismatched z,
  let cs := [Column "power" Float32 false] in
  exists ts' t', perform mismatched (Client_write [] [] "Wind" (Batch cs [[number z]]))
      [("Wind", plain cs); ("wind", plain cs)] = (ts', Ok tt)
    /\ lookup "Wind" ts' = Some (plain cs) /\ lookup "wind" ts' = Some t'
    /\ table_contents t' = [[("power", Single z)]].
Proof.
  intros mismatched z cs. eexists. eexists. split; [reflexivity|]. split; [reflexivity|]. split; reflexivity.
Qed.
Lemma null_stored : forall mismatched z,
  let cs := [Column "stamp" Microseconds false; Column "power" Float32 true] in
  let rs := [[time 0; Entry false (Word32 z)]] in
  contents cs rs = [[("stamp", Instant 0); ("power", Missing)]]
  /\ forall r, In r [Folder_write No_fault "wind" (Batch cs rs); Client_write [] [] "wind" (Batch cs rs);
                     Insert [] "wind" [Some rs]] ->
     exists ts' t', perform mismatched r [("wind", time_series cs)] = (ts', Ok tt)
       /\ lookup "wind" ts' = Some t'
       /\ table_contents t' = [[("stamp", Instant 0); ("power", Single z)]].
Proof.
  intros mismatched z cs rs. split; [reflexivity|].
  intros r [<-|[<-|[<-|[]]]]; eexists; eexists; (split; [reflexivity|]); split; reflexivity.
Qed.
Lemma poisoned : forall mismatched z,
  let cs := [Column "stamp" Microseconds true; Column "power" Float32 true] in
  let rs := [[Entry false (Word64 0); number z]] in
  forall r, In r [Client_write [] [] "wind" (Batch cs rs); Insert [] "wind" [Some rs]] ->
  exists ts' t', perform mismatched r [("wind", time_series cs)] = (ts', Panic)
    /\ lookup "wind" ts' = Some t' /\ start t' = Panic.
Proof.
  intros mismatched z cs rs r [<-|[<-|[]]]; eexists; eexists; (split; [reflexivity|]); split; reflexivity.
Qed.
