(** What crashes do to tables. *)
From Coq Require Import ZArith Bool String List Lia Permutation.
From Verif Require Import Model.Base Model.ErrorBound Model.Filters Model.Table Model.Catalog
  Spec.TableSpec Spec.CatalogSpec Proofs.TableProofs Proofs.DefinitionProofs
  Proofs.StoredDefinitionProofs Proofs.InterruptedProofs Proofs.CatalogProofs.
Import ListNotations.
Open Scope nat_scope.
Open Scope list_scope.

Lemma fields_prefix : forall columns i, fields (firstn i columns) <= fields columns.
Proof.
  unfold fields. induction columns as [|c columns IH]; intros [|i]; cbn [firstn filter]; cbn [length];
    try lia. specialize (IH i). destruct (arrow_type_eqb (snd c) Float32); cbn [length]; lia.
Qed.

Section Theorems.
Variable ser : serializer.
Variable ord : list string -> list string.
Variable del : list file -> list file.
Hypothesis Hser : faithful ser.
Hypothesis Hord : enumerates ord.
Hypothesis Hdel : forall l, Permutation (del l) l.

Notation holds := (holds ser).
Notation all_hold := (all_hold ser).

(** Whether a table exists depends on its view. *)
Lemma existing_view : forall s s' x n, view_of s x = view_of s' x ->
  existing ser ord s x n -> existing ser ord s' x n.
Proof.
  intros s s' x n V (R & columns & H & L).
  assert (V1 : contains x (registered s) = contains x (registered s')) by apply (f_equal v_registered V).
  pose proof (f_equal v_table V) as V2. pose proof (f_equal v_fields V) as V3.
  cbn [view_of v_table v_fields] in V2, V3. split.
  - apply contains_In. rewrite <- V1. now apply contains_In.
  - exists columns. split.
    + assert (I : In (x, columns) (filter (fun r => String.eqb (fst r) x)
                                     (table_rows (series_rows (on_disk s))))).
      { apply filter_In. split; [exact H|apply String.eqb_refl]. }
      change (In (x, columns) (v_table (view_of s x))) in I. rewrite V in I.
      apply filter_In in I. apply I.
    + rewrite <- L. apply load_row_ext. now symmetry.
Qed.

Lemma view_registered : forall s x, v_registered (view_of s x) = true <-> In x (registered s).
Proof. intros s x. apply contains_In. Qed.

Lemma series_existing : forall s x i m, holds (view_of s x) x (Series i m) ->
  exists n, existing ser ord s x n /\ interrupted i m n.
Proof.
  intros s x i m H. destruct (series_view ser _ _ _ _ H) as (fs & rs & V & _ & _ & N & Hv & L & R & _).
  pose proof (f_equal v_registered V) as V1. pose proof (f_equal v_table V) as V2.
  pose proof (f_equal v_fields V) as V3. cbn [v_registered v_table v_fields] in V1, V2, V3.
  subst x.
  destruct (interrupted_loads ser ord m i rs (series_rows (on_disk s)) Hser Hord Hv L R V3)
    as (n & En & In_n).
  exists n. split; [|exact In_n]. split; [now apply view_registered|].
  exists (query_schema m). split; [|exact En].
  assert (I : In (table_name m, query_schema m) (v_table (view_of s (table_name m))))
    by (rewrite V2; now left).
  apply filter_In in I. apply I.
Qed.

Lemma complete_existing : forall s x m, holds (view_of s x) x (Series (length (query_schema m)) m) ->
  exists n, existing ser ord s x n /\ same_definition m n.
Proof.
  intros s x m H. destruct (series_view ser _ _ _ _ H) as (fs & rs & V & _ & _ & N & Hv & L & R & _).
  pose proof (f_equal v_registered V) as V1. pose proof (f_equal v_table V) as V2.
  pose proof (f_equal v_fields V) as V3. cbn [v_registered v_table v_fields] in V1, V2, V3.
  subst x. rewrite firstn_all in R.
  destruct (complete_loads ser ord m rs (series_rows (on_disk s)) Hser Hord Hv R V3)
    as (n & En & In_n & _).
  exists n. split; [|exact In_n]. split; [now apply view_registered|].
  exists (query_schema m). split; [|exact En].
  assert (I : In (table_name m, query_schema m) (v_table (view_of s (table_name m))))
    by (rewrite V2; now left).
  apply filter_In in I. apply I.
Qed.

Lemma existing_status : forall s x n, all_hold s -> existing ser ord s x n ->
  exists i m, holds (view_of s x) x (Series i m).
Proof.
  intros s x n Hall (R & columns & H & _). destruct (Hall x) as ([| | |i m] & Hst).
  - destruct (absent_view ser _ _ Hst) as (fs & V & _). exfalso.
    assert (I : In (x, columns) (v_table (view_of s x)))
      by (apply filter_In; split; [exact H|apply String.eqb_refl]).
    rewrite V in I. destruct I.
  - destruct (leftover_view ser _ _ Hst) as (fs & rs & V & _). exfalso.
    assert (I : In (x, columns) (v_table (view_of s x)))
      by (apply filter_In; split; [exact H|apply String.eqb_refl]).
    rewrite V in I. destruct I.
  - destruct (normal_view ser _ _ Hst) as (fs & V & _). exfalso.
    assert (I : In (x, columns) (v_table (view_of s x)))
      by (apply filter_In; split; [exact H|apply String.eqb_refl]).
    rewrite V in I. destruct I.
  - now exists i, m.
Qed.

(** The definition depends only on the rows of the table. *)
Lemma existing_rows : forall s s' x n, existing ser ord s x n -> In x (registered s') ->
  v_table (view_of s x) = v_table (view_of s' x) -> v_fields (view_of s x) = v_fields (view_of s' x) ->
  existing ser ord s' x n.
Proof.
  intros s s' x n (R & columns & H & L) R' T F. split; [exact R'|]. exists columns. split.
  - assert (I : In (x, columns) (v_table (view_of s x)))
      by (apply filter_In; split; [exact H|apply String.eqb_refl]).
    rewrite T in I. apply filter_In in I. apply I.
  - rewrite <- L. apply load_row_ext. now symmetry.
Qed.

Lemma absent_creatable : forall s x, holds (view_of s x) x Absent ->
  absent s x /\ creatable ser ord del s x.
Proof.
  intros s x H. destruct (absent_view ser _ _ H) as (fs & V & _). split.
  - intros R. apply view_registered in R. rewrite V in R. discriminate.
  - intros m Hv D <-.
    pose proof (operation_ok ser del Hdel (Create_series m) s Absent (conj Hv D) H) as P.
    destruct (execute ser del (Create_series m) s) as (s', r).
    destruct P as (-> & (st' & F & P) & _). cbn [finished] in F. subst st'. exists s'.
    destruct (complete_existing _ _ _ P) as (n & E & S). exists n. auto.
Qed.

Lemma leftover_blocked : forall s x, holds (view_of s x) x Leftover ->
  absent s x /\ blocked ser del s x.
Proof.
  intros s x H. destruct (leftover_view ser _ _ H) as (fs & rs & V & _ & D). split; [|split; [|split]].
  - intros R. apply view_registered in R. rewrite V in R. discriminate.
  - intros m Hv <-. pose proof (operation_ok ser del Hdel (Create_series m) s Leftover (conj Hv D) H) as P.
    destruct (execute ser del (Create_series m) s) as (s', r). apply P.
  - pose proof (operation_ok ser del Hdel (Create_normal x) s Leftover D H) as P.
    destruct (execute ser del (Create_normal x) s) as (s', r). apply P.
  - pose proof (operation_ok ser del Hdel (Drop x) s Leftover I H) as P.
    destruct (execute ser del (Drop x) s) as (s', r). apply P.
Qed.

(** A table stays the same. *)
Lemma history_keeps : forall x st events s s', Forall valid_event events -> all_hold s ->
  (forall e v, In e events -> forall st', next e x v st st' -> st' = st) ->
  holds (view_of s x) x st -> history ser ord del s events = Ok s' -> holds (view_of s' x) x st.
Proof.
  intros x st. induction events as [|e events IH]; intros s s' Hv Hall Hk H E; cbn [history] in E.
  - injection E as <-. exact H.
  - inversion Hv as [|? ? He Hr]; subst.
    destruct (step_ok ser ord del Hser Hord Hdel s e He Hall) as (s1 & E1 & H1 & N).
    rewrite E1 in E. cbn [bind] in E. destruct (N x st H) as (st' & N1 & N2).
    apply (Hk e _ (or_introl eq_refl)) in N1. subst st'.
    apply (IH s1 s' Hr H1); [|exact N2|exact E].
    intros e' v He'. apply Hk. now right.
Qed.

Lemma leftover_forever : forall x events s s', Forall valid_event events -> all_hold s ->
  holds (view_of s x) x Leftover -> history ser ord del s events = Ok s' ->
  absent s' x /\ blocked ser del s' x.
Proof.
  intros x events s s' Hv Hall H E. apply leftover_blocked.
  apply (history_keeps x Leftover events s s' Hv Hall); [|exact H|exact E].
  intros e v _ st'. destruct e as [o|o k|y n]; cbn [next]; [| |auto];
    destruct (String.eqb (about o) x); auto; destruct o; cbn; auto.
Qed.

Lemma completed : forall events s m s1 events' s', Forall valid_event events ->
  history ser ord del new_server events = Ok s -> valid_operation (Create_series m) ->
  execute ser del (Create_series m) s = (s1, Ok tt) ->
  Forall valid_event events' -> Forall (keeps (table_name m)) events' ->
  history ser ord del s1 events' = Ok s' ->
  exists n, existing ser ord s' (table_name m) n /\ same_definition m n.
Proof.
  intros events s m s1 events' s' Hv E Vm Ex Hv' Hk E'.
  pose proof (reachable ser ord del Hser Hord Hdel _ _ Hv E) as Hall.
  destruct (Hall (table_name m)) as (st & Hst).
  pose proof (operation_ok ser del Hdel (Create_series m) s st Vm Hst) as P. rewrite Ex in P.
  destruct P as (Ha & (st' & F & P) & Fr).
  destruct st as [| | |i m']; cbn [answer] in Ha; try discriminate. cbn [finished] in F. subst st'.
  assert (Hall1 : all_hold s1).
  { intros y. destruct (string_dec y (table_name m)) as [->|N]; [eexists; exact P|].
    rewrite (Fr y N). apply Hall. }
  apply (complete_existing s' (table_name m) m).
  apply (history_keeps _ _ events' s1 s' Hv' Hall1); [|exact P|exact E'].
  intros e v Hin st'. rewrite Forall_forall in Hk. specialize (Hk e Hin).
  destruct e as [o|o k|y n]; cbn [next keeps] in *; [| |auto];
    destruct (String.eqb_spec (about o) (table_name m)) as [A|A]; auto;
    destruct o as [m2|y|y]; cbn in *; auto; congruence.
Qed.

(** Creation. *)
Lemma create_crash : forall events s m k, Forall valid_event events ->
  history ser ord del new_server events = Ok s -> valid_operation (Create_series m) ->
  snd (execute ser del (Create_series m) s) = Ok tt ->
  exists s', start ser ord (crash ser del (Create_series m) k s) = Ok s'
    /\ (k = 0 -> absent s' (table_name m) /\ creatable ser ord del s' (table_name m))
    /\ (k = 1 -> absent s' (table_name m)
         /\ forall later s'', Forall valid_event later -> history ser ord del s' later = Ok s'' ->
              absent s'' (table_name m) /\ blocked ser del s'' (table_name m))
    /\ (forall i, i <= length (query_schema m) -> k = 2 + fields (firstn i (query_schema m)) ->
          exists n, existing ser ord s' (table_name m) n /\ interrupted i m n)
    /\ (2 + fields (query_schema m) <= k ->
          exists n, existing ser ord s' (table_name m) n /\ same_definition m n)
    /\ (forall y n, y <> table_name m ->
          (existing ser ord s y n <-> existing ser ord s' y n)).
Proof.
  intros events s m k Hv E Vm Ex.
  pose proof (reachable ser ord del Hser Hord Hdel _ _ Hv E) as Hall.
  destruct (Hall (table_name m)) as (st & Hst).
  pose proof (operation_ok ser del Hdel (Create_series m) s st Vm Hst) as P.
  destruct (execute ser del (Create_series m) s) as (s1, r). cbn [snd] in Ex. subst r.
  destruct P as (Ha & _). destruct st as [| | |i m']; cbn [answer] in Ha; try discriminate. clear Ha s1.
  destruct (crash_ok ser ord del Hser Hord Hdel (Create_series m) k s Vm Hall) as (s' & Es & Fr & Own).
  destruct (Own Absent Hst) as (st' & C & H'). cbn [crashed about] in C, H'.
  assert (Hall' : all_hold s').
  { intros y. destruct (string_dec y (table_name m)) as [->|N]; [now exists st'|].
    rewrite (Fr y N). apply Hall. }
  assert (Shift : forall i j, st' = Series i m -> j <= length (query_schema m) ->
            fields (firstn i (query_schema m)) = fields (firstn j (query_schema m)) ->
            holds (view_of s' (table_name m)) (table_name m) (Series j m)).
  { intros i j -> Lj F. destruct (series_view ser _ _ _ _ H') as (fs & rs & V & P1 & P2 & _ & _ & L & R & _).
    destruct H' as ((H1 & H2) & H3). split; [|exact H3]. split; [|exact H2].
    cbn [on_disk_as] in *. destruct H1 as (A1 & A2 & A3 & A4 & A5 & A6 & A7 & A8 & A9).
    repeat (split; [assumption|]).
    destruct Vm as ([(bounds & Hacc) _ _ _ _] & _).
    destruct (accepted_facts _ _ _ _ _ Hacc) as (_ & _ & _ & _ & L3 & _).
    destruct (field_rows_exist ser m (query_schema m) 0 L3) as (rows & Rr).
    rewrite (field_rows_prefix _ _ _ _ j Rr), <- F, <- (field_rows_prefix _ _ _ _ i Rr). auto. }
  exists s'. split; [exact Es|]. split; [|split; [|split; [|split]]].
  - intros ->. subst st'. now apply absent_creatable.
  - intros ->. subst st'. split; [now apply leftover_blocked|].
    intros later s'' Hl. now apply leftover_forever.
  - intros i Li ->. destruct C as (j & Lj & Fj & ->).
    pose proof (fields_prefix (query_schema m) i) as Fi.
    apply series_existing. apply (Shift j i eq_refl Li). lia.
  - intros Lk. destruct k as [|[|k]]; [lia|lia|]. destruct C as (j & Lj & Fj & ->).
    apply complete_existing. apply (Shift j _ eq_refl (le_n _)). rewrite fields_all. lia.
  - intros y n N. split; apply existing_view; [symmetry|]; now apply Fr.
Qed.

(** Dropping. *)
Lemma drop_crash : forall events s x n k, Forall valid_event events ->
  history ser ord del new_server events = Ok s -> existing ser ord s x n ->
  exists s', start ser ord (crash ser del (Drop x) k s) = Ok s'
    /\ (k <= 2 -> existing ser ord s' x n)
    /\ (3 <= k -> absent s' x
         /\ (creatable ser ord del s' x
             \/ forall later s'', Forall valid_event later -> history ser ord del s' later = Ok s'' ->
                  absent s'' x /\ blocked ser del s'' x))
    /\ (k = 3 -> forall later s'', Forall valid_event later -> history ser ord del s' later = Ok s'' ->
                  absent s'' x /\ blocked ser del s'' x)
    /\ (4 + length (files_of_table x (on_disk s)) <= k -> creatable ser ord del s' x)
    /\ (forall y n', y <> x -> (existing ser ord s y n' <-> existing ser ord s' y n')).
Proof.
  intros events s x n k Hv E Ex.
  pose proof (reachable ser ord del Hser Hord Hdel _ _ Hv E) as Hall.
  destruct (existing_status s x n Hall Ex) as (i & m & Hst).
  destruct (series_view ser _ _ _ _ Hst) as (fs & rs & V & Lg & Pt & _ & _ & _ & R & _).
  assert (Prog : program ser del (Drop x) s
                 = Ok (Deregister x :: Remove_log x :: Delete_table_rows x :: Delete_field_rows x
                       :: map (Delete_file x) (del fs))).
  { cbn [program]. unfold drop. pose proof (f_equal v_registered V) as V1. cbn in V1. rewrite V1.
    change (is_time_series_table x (on_disk s)) with (partitioned (v_files (view_of s x))).
    change (files_of_table x (on_disk s)) with (v_files (view_of s x)).
    rewrite V. cbn [v_files negb]. now rewrite Pt. }
  destruct (crash_ok ser ord del Hser Hord Hdel (Drop x) k s I Hall) as (s' & Es & Fr & Own).
  destruct (Own _ Hst) as (st' & C & H'). cbn [crashed about] in C, H'.
  assert (Hall' : all_hold s').
  { intros y. destruct (string_dec y x) as [->|N]; [now exists st'|].
    rewrite (Fr y N). apply Hall. }
  exists s'. split; [exact Es|]. split; [|split; [|split; [|split]]].
  - intros Lk. rewrite (proj2 (Nat.leb_le k 2) Lk) in C. subst st'.
    destruct (series_view ser _ _ _ _ H') as (fs' & rs' & V' & _ & _ & _ & _ & _ & R' & _).
    apply (existing_rows s s' x n Ex).
    + apply view_registered. now rewrite V'.
    + now rewrite V, V'.
    + rewrite V, V'. cbn [v_fields]. congruence.
  - intros Lk. rewrite (proj2 (Nat.leb_gt k 2)) in C by lia.
    destruct C as [(-> & _)| ->].
    + split; [now apply leftover_blocked|]. right. intros later s'' Hl. now apply leftover_forever.
    + split; [now apply absent_creatable|]. left. now apply absent_creatable.
  - intros ->. cbn [Nat.leb] in C.
    assert (Hl : holds (view_of s' x) x Leftover).
    { pose proof (operation_prefix ser del Hdel (Drop x) s _ 3 I Hst) as (st2 & C2 & H2).
      rewrite Prog in H2. cbn [about] in H2.
      assert (Names : Forall (fun a => name_of a = x)
                (firstn 3 (Deregister x :: Remove_log x :: Delete_table_rows x :: Delete_field_rows x
                       :: map (Delete_file x) (del fs)))) by (cbn [firstn]; repeat constructor).
      destruct (perform_view x _ s Names) as (_ & W & _). rewrite W in H2. rewrite V in H2.
      cbn [firstn local_perform local_act fst] in H2. destruct C as [(-> & _)| ->]; [exact H'|].
      (* the log is still there *)
      unfold crash in Es. rewrite Prog in Es.
      destruct (start_ok ser ord Hser Hord
                  (fst (perform (firstn 3 (Deregister x :: Remove_log x :: Delete_table_rows x
                     :: Delete_field_rows x :: map (Delete_file x) (del fs))) s))) as (t & Et & Vt).
      { intros y. destruct (string_dec y x) as [->|N].
        - exists st2. rewrite W, V. exact H2.
        - destruct (perform_view x _ s Names) as (Wy & _). rewrite (Wy y N).
          destruct (Hall y) as (sty & (Hy & _)). now exists sty. }
      rewrite Es in Et. injection Et as <-.
      destruct (absent_view ser _ _ H') as (fs' & V' & L'). rewrite (Vt x), W, V in V'.
      cbn [firstn local_perform local_act fst local_start] in V'. injection V' as -> _.
      congruence. }
    intros later s'' Hlv. now apply leftover_forever.
  - intros Lk. rewrite (proj2 (Nat.leb_gt k 2)) in C by lia.
    assert (Lf : length (v_files (view_of s x)) = length (files_of_table x (on_disk s))) by reflexivity.
    destruct C as [(_ & L)| ->]; [lia|]. now apply absent_creatable.
  - intros y n' N. split; apply existing_view; [symmetry|]; now apply Fr.
Qed.

(** A definition of which only the name and columns are saved is not the same. *)
Lemma interrupted_differs : forall m n, interrupted 0 m n ->
  (exists b, In b (error_bounds m) /\ b <> Lossless)
  \/ (exists g, In (Some g) (generated_columns m)) -> ~ same_definition m n.
Proof.
  intros m n (N & Q & bounds & D & Dn & G) H Hs.
  cbn [firstn app] in Dn, G. rewrite Nat.sub_0_r in Dn, G.
  assert (None_n : forall h, In h (generated_columns n) -> h = None).
  { intros h Hh. apply In_nth_error in Hh. destruct Hh as (j & Hj).
    destruct (Forall2_nth_some _ _ _ G j h Hj) as (g & Hg & Sg).
    apply nth_error_In, repeat_spec in Hg. subst g. destruct h; [destruct Sg|reflexivity]. }
  destruct H as [(b & Hb & Nb)|(g & Hg)].
  - rewrite (same_bounds _ _ Hs) in Hb. apply In_nth_error in Hb. destruct Hb as (j & Hj).
    pose proof (bounds_stored _ _ _ _ Dn) as B.
    assert (X : nth_error (map Some (error_bounds n)) j = Some (Some b))
      by (rewrite nth_error_map, Hj; reflexivity).
    rewrite B, nth_error_map in X.
    destruct (nth_error (query_schema_to_schema n) j) as [p|]; [|discriminate]. cbn in X.
    injection X as X. apply nth_error_In, repeat_spec in X. contradiction.
  - pose proof (same_exprs _ _ Hs) as F. clear - F Hg None_n.
    induction F as [|a h gs hs P F IH]; [destruct Hg|]. destruct Hg as [->|Hg].
    + pose proof (None_n h (or_introl eq_refl)) as ->. destruct P.
    + apply IH; [exact Hg|]. intros h' Hh'. apply None_n. now right.
Qed.

Lemma wrong_definition : forall events s m, Forall valid_event events ->
  history ser ord del new_server events = Ok s -> valid_operation (Create_series m) ->
  snd (execute ser del (Create_series m) s) = Ok tt ->
  (exists b, In b (error_bounds m) /\ b <> Lossless)
  \/ (exists g, In (Some g) (generated_columns m)) ->
  exists s' n, start ser ord (crash ser del (Create_series m) 2 s) = Ok s'
    /\ existing ser ord s' (table_name m) n /\ interrupted 0 m n /\ ~ same_definition m n.
Proof.
  intros events s m Hv E Vm Ex H.
  destruct (create_crash events s m 2 Hv E Vm Ex) as (s' & Es & _ & _ & P & _).
  destruct (P 0) as (n & Hn & Hi); [lia|reflexivity|]. exists s', n.
  split; [exact Es|]. split; [exact Hn|]. split; [exact Hi|]. now apply interrupted_differs.
Qed.

(** Names with dots. *)
Lemma register_dotted : forall d x names l, In x names -> dotted x = true ->
  register_all names d <> Ok l.
Proof.
  intros d x. induction names as [|y names IH]; intros l Hin D; [destruct Hin|].
  cbn [register_all]. destruct Hin as [->|Hin].
  - rewrite D, andb_false_r. discriminate.
  - destruct (delta_table_exists y d && negb (dotted y)); [|discriminate].
    destruct (register_all names d) as [rest| |]; cbn [bind]; try discriminate.
    intros _. now apply (IH rest Hin D).
Qed.

Lemma dotted_stops : forall events s x, Forall valid_event events ->
  history ser ord del new_server events = Ok s -> dotted x = true ->
  exists s', execute ser del (Create_normal x) s = (s', Err)
    /\ forall t, start ser ord (on_disk s') <> Ok t.
Proof.
  intros events s x Hv E D.
  pose proof (reachable ser ord del Hser Hord Hdel _ _ Hv E) as Hall.
  destruct (Hall x) as (st & Hst). destruct st as [| | |i m].
  - destruct (absent_view ser _ _ Hst) as (fs & V & L).
    pose proof (f_equal v_registered V) as V1. pose proof (f_equal v_files V) as V2.
    cbn [view_of v_registered v_files] in V1, V2.
    unfold execute. cbn [program]. unfold create_normal. rewrite V1.
    cbn [perform act]. unfold delta_table_exists at 1. rewrite V2, L.
    cbn [perform act]. rewrite D, andb_false_r.
    eexists. split; [reflexivity|]. intros t. unfold start.
    cbn [with_disk with_normal_rows with_files on_disk series_rows normal_rows files].
    destruct (load_all _ _ _) as [tables| |]; cbn [bind]; try discriminate.
    destruct (open_all _ _ _) as [[folders opened]| |]; cbn [bind]; try discriminate.
    destruct (register_all _ _) as [names| |] eqn:R; cbn [bind]; try discriminate.
    exfalso. revert R. apply (register_dotted _ x); [|exact D].
    cbn [with_log_folders normal_rows]. apply in_or_app. right. now left.
  - destruct (leftover_view ser _ _ Hst) as (fs & rs & _ & _ & D'). congruence.
  - destruct (normal_view ser _ _ Hst) as (fs & _ & _ & _ & D'). congruence.
  - destruct (series_view ser _ _ _ _ Hst) as (fs & rs & _ & _ & _ & _ & _ & _ & _ & D'). congruence.
Qed.
End Theorems.
