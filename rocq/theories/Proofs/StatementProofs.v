(** What statements that name tables do: lemmas. *)
From Coq Require Import ZArith Bool Ascii String List Lia.
From Verif Require Import Model.Base Model.Sql Model.Statements Spec.StatementSpec Proofs.SqlProofs.
Import ListNotations.
Open Scope char_scope.
Open Scope nat_scope.
Open Scope list_scope.

(** Lookups. *)
Lemma lookup_cons : forall x y t db,
  lookup x ((y, t) :: db) = if String.eqb y x then Some t else lookup x db.
Proof. intros x y t db. unfold lookup. cbn [find fst]. now destruct (String.eqb y x). Qed.

Lemma lookup_without : forall x y db,
  lookup x (filter (fun p => negb (String.eqb (fst p) y)) db)
  = if String.eqb x y then None else lookup x db.
Proof.
  intros x y db. induction db as [|(z, t) db IH].
  - cbn. now destruct (String.eqb x y).
  - cbn [filter fst]. destruct (String.eqb_spec z y) as [->|N]; cbn [negb].
    + rewrite IH, lookup_cons, (String.eqb_sym y x). now destruct (String.eqb x y).
    + rewrite !lookup_cons, IH. destruct (String.eqb_spec z x) as [->|N']; [|reflexivity].
      destruct (String.eqb_spec x y); [contradiction|reflexivity].
Qed.

Lemma lookup_delete : forall x y db, lookup x (map (delete_files y) db)
  = option_map (fun t => if starts_with (segments y) (segments x)
                         then Table (definition t) [] [] else t) (lookup x db).
Proof.
  intros x y db. induction db as [|(z, t) db IH]; [reflexivity|].
  cbn [map]. unfold delete_files at 1. destruct (starts_with (segments y) (segments z)) eqn:E;
    rewrite !lookup_cons, IH; destruct (String.eqb_spec z x) as [->|N]; cbn [option_map];
    rewrite ?E; reflexivity.
Qed.

Lemma lookup_change : forall x y f db, lookup x (change y f db)
  = option_map (fun t => if String.eqb x y then f t else t) (lookup x db).
Proof.
  intros x y f db. induction db as [|(z, t) db IH]; [reflexivity|].
  unfold change in *. cbn [map]. destruct (String.eqb z y) eqn:E;
    rewrite !lookup_cons, IH; destruct (String.eqb_spec z x) as [->|N]; cbn [option_map];
    rewrite ?E; reflexivity.
Qed.

Lemma exists_iff : forall x db, exists_table x db = true <-> lookup x db <> None.
Proof. intros x db. unfold exists_table. destruct (lookup x db); split; congruence. Qed.

(** One table. *)
Definition affects_one (x : string) (effect : table -> option table) (db db' : database) : Prop :=
  forall y, lookup y db' = match lookup y db with
                           | Some t => if String.eqb y x then effect t else Some t
                           | None => None
                           end.

Lemma drop_one : forall x names db, In x names -> own_folders names db ->
  match drop_table x db with
  | Ok db' => lookup x db <> None /\ affects_one x dropped db db' /\ own_folders names db'
  | Err => lookup x db = None
  | Panic => False
  end.
Proof.
  intros x names db I O. unfold drop_table. destruct (exists_table x db) eqn:E.
  - apply exists_iff in E.
    assert (A : affects_one x dropped db
              (map (delete_files x) (filter (fun p => negb (String.eqb (fst p) x)) db))).
    { intros y. rewrite lookup_delete, lookup_without. destruct (String.eqb_spec y x) as [->|N].
      - cbn. now destruct (lookup x db).
      - destruct (lookup y db) as [t|] eqn:L; [|reflexivity]. cbn [option_map].
        destruct (starts_with (segments x) (segments y)) eqn:S; [|reflexivity].
        elim N. apply (O x y I); [congruence|exact S]. }
    split; [exact E|]. split; [exact A|]. intros a b Ia Lb. apply (O a b Ia).
    rewrite (A b) in Lb. now destruct (lookup b db).
  - unfold exists_table in E. now destruct (lookup x db).
Qed.

Lemma truncate_one : forall x db,
  match truncate_table x db with
  | Ok db' => lookup x db <> None /\ affects_one x emptied db db' /\ True
  | Err => lookup x db = None
  | Panic => False
  end.
Proof.
  intros x db. unfold truncate_table. destruct (exists_table x db) eqn:E.
  - apply exists_iff in E. split; [exact E|]. split; [|exact I]. intros y. rewrite lookup_change.
    destruct (lookup y db) as [t|]; [|reflexivity]. cbn [option_map]. now destruct (String.eqb y x).
  - unfold exists_table in E. now destruct (lookup x db).
Qed.

Definition period_of (retention : option Z) : Z :=
  match retention with Some period => period | None => 604800%Z end.
Lemma vacuum_one : forall retention x db, (0 <= period_of retention <= max_retention)%Z ->
  match vacuum_table retention x db with
  | Ok db' => lookup x db <> None /\ affects_one x (cleaned (period_of retention)) db db' /\ True
  | Err => lookup x db = None
  | Panic => False
  end.
Proof.
  intros retention x db H. unfold vacuum_table. destruct (exists_table x db) eqn:E.
  - apply exists_iff in E.
    change (match retention with Some period => period | None => (60 * 60 * 24 * 7)%Z end)
      with (period_of retention).
    assert (D : time_delta (as_i64 (period_of retention)) = Some (period_of retention)).
    { assert (M : (max_retention < 2 ^ 63)%Z) by now vm_compute.
      assert (A : as_i64 (period_of retention) = period_of retention).
      { unfold as_i64. rewrite Z.mod_small; lia. }
      rewrite A. unfold time_delta.
      destruct (Z.ltb_spec (period_of retention) (- max_retention - 1)); [lia|].
      rewrite Z.gtb_ltb. destruct (Z.ltb_spec max_retention (period_of retention)); [lia|reflexivity]. }
    rewrite D. split; [exact E|]. split; [|exact I]. intros y. rewrite lookup_change.
    destruct (lookup y db) as [t|]; [|reflexivity]. cbn [option_map]. now destruct (String.eqb y x).
  - unfold exists_table in E. now destruct (lookup x db).
Qed.

(** Several tables. *)
Lemma affects_cons : forall x names effect db db1 db2,
  (forall t t', effect t = Some t' -> effect t' = Some t') ->
  affects_one x effect db db1 -> affects names effect db1 db2 -> affects (x :: names) effect db db2.
Proof.
  intros x names effect db db1 db2 Id A1 A2 y. rewrite (A2 y), (A1 y).
  destruct (lookup y db) as [t|]; [|reflexivity].
  destruct (in_dec string_dec y (x :: names)) as [I|N], (String.eqb_spec y x) as [E|N'];
    destruct (in_dec string_dec y names) as [I'|N2]; cbn in *.
  - destruct (effect t) as [t'|] eqn:T; [|reflexivity]. now apply (Id t).
  - now destruct (effect t).
  - reflexivity.
  - destruct I; congruence.
  - elim N. auto.
  - elim N. auto.
  - elim N. auto.
  - reflexivity.
Qed.

Lemma each_carried_out : forall f effect all (P : database -> Prop),
  (forall t t', effect t = Some t' -> effect t' = Some t') ->
  (forall x db, In x all -> P db ->
     match f x db with
     | Ok db' => lookup x db <> None /\ affects_one x effect db db' /\ P db'
     | Err => lookup x db = None
     | Panic => False
     end) ->
  forall names db, (forall x, In x names -> In x all) -> P db ->
  carried_out names effect db (fst (each f names db)) (snd (each f names db)).
Proof.
  intros f effect all P Id F. induction names as [|x names IH]; intros db I Hp.
  - exists [], []. split; [reflexivity|]. split; [intros y []|]. split; [|now left].
    intros y. cbn. now destruct (lookup y db).
  - specialize (F x db (I x (or_introl eq_refl)) Hp). cbn [each].
    destruct (f x db) as [db1| |]; [| |contradiction].
    + destruct F as (E & A & Hp1).
      destruct (IH db1 (fun y Hy => I y (or_intror Hy)) Hp1) as (before & after & -> & Ex & Af & R).
      exists (x :: before), after. split; [reflexivity|]. split.
      { intros y [<-|Hy]; [exact E|]. specialize (Ex y Hy). rewrite (A y) in Ex.
        now destruct (lookup y db). }
      split; [|exact R]. eapply affects_cons; eassumption.
    + exists [], (x :: names). split; [reflexivity|]. split; [intros y []|]. cbn [fst snd]. split.
      * intros y. cbn. now destruct (lookup y db).
      * right. split; [reflexivity|]. now exists x, names.
Qed.

Lemma drop_carried_out : forall names db, own_folders names db ->
  carried_out names dropped db (fst (execute (Drop_table names) db))
    (snd (execute (Drop_table names) db)).
Proof.
  intros names db O. apply (each_carried_out drop_table dropped names (own_folders names)).
  - intros t t' E. discriminate E.
  - intros x d I H. now apply drop_one.
  - auto.
  - exact O.
Qed.

Lemma truncate_carried_out : forall names db,
  carried_out names emptied db (fst (execute (Truncate_table names false) db))
    (snd (execute (Truncate_table names false) db)).
Proof.
  intros names db. apply (each_carried_out truncate_table emptied names (fun _ => True)); auto.
  - unfold emptied. intros t t' E. injection E as <-. reflexivity.
  - intros x d _ _. apply truncate_one.
Qed.

Lemma filter_twice : forall (A : Type) (p : A -> bool) l, filter p (filter p l) = filter p l.
Proof.
  intros A p l. induction l as [|a l IH]; [reflexivity|]. cbn [filter]. destruct (p a) eqn:E; [|exact IH].
  cbn [filter]. now rewrite E, IH.
Qed.
Lemma vacuum_carried_out : forall names retention db, (0 <= period_of retention <= max_retention)%Z ->
  carried_out (match names with [] => map fst db | _ => names end) (cleaned (period_of retention)) db
    (fst (execute (Vacuum names retention false) db))
    (snd (execute (Vacuum names retention false) db)).
Proof.
  intros names retention db H. cbn [execute]. set (all := match names with [] => _ | _ => _ end).
  apply (each_carried_out (vacuum_table retention) (cleaned (period_of retention)) all (fun _ => True));
    auto.
  - unfold cleaned. intros t t' E. injection E as <-. cbn. now rewrite filter_twice.
  - intros x d _ _. now apply vacuum_one.
Qed.

(** Retention periods that are accepted. *)
Lemma number_nonneg : forall digits z r, (0 <= z)%Z -> number digits z = Some r -> (0 <= r)%Z.
Proof.
  induction digits as [|c digits IH]; intros z r Hz E; cbn [number] in E.
  - now injection E as <-.
  - destruct (digit c) eqn:D; [|discriminate]. apply IH in E; [exact E|]. unfold digit, between in D.
    apply andb_true_iff in D. destruct D as (D & _). apply Nat.leb_le in D.
    change (nat_of_ascii "0") with 48 in D. unfold digit_value. lia.
Qed.
Lemma retention_bounds : forall retention tokens, retention_written retention tokens ->
  (0 <= period_of retention <= max_retention)%Z.
Proof.
  intros [period|] tokens H; cbn [retention_written period_of] in *.
  - destruct H as (t & digits & _ & _ & P & M). split; [|exact M].
    apply parse_u64_iff in P; [|exact M]. unfold parse_u64 in P.
    destruct (number digits 0) as [z|] eqn:E; [|discriminate].
    destruct (z <? 2 ^ 64)%Z; [|discriminate]. injection P as <-.
    now apply (number_nonneg digits 0).
  - unfold max_retention. split; [lia|]. now vm_compute.
Qed.

(** Names in the database. *)
Definition no_upper (s : string) : Prop := forall c, upper_case c = true -> ~ has_char c s.
Lemma lower_no_upper : forall s, no_upper (map_string to_lower s).
Proof.
  induction s as [|c s IH]; intros d U H; cbn in H; [contradiction|].
  destruct H as [H|H]; [|now apply (IH d U)]. subst d. revert U. unfold to_lower.
  destruct c as [[] [] [] [] [] [] [] []]; vm_compute; discriminate.
Qed.
Lemma create_lower : forall reserved value t db db',
  create reserved value t db = Ok db' -> db' = db ++ [(map_string to_lower value, t)].
Proof.
  intros reserved value t db db' H. unfold create, create_name in H.
  destruct (existsb _ _); [discriminate|]. destruct (reserved _); [discriminate|].
  destruct (forallb _ _); [|discriminate]. cbn [bind] in H.
  destruct (exists_table _ db); congruence.
Qed.

Lemma change_names : forall x f db, map fst (change x f db) = map fst db.
Proof.
  intros x f db. unfold change. rewrite map_map. apply map_ext. intros (y, t). cbn.
  now destruct (String.eqb y x).
Qed.
Lemma each_names : forall f, (forall x db db', f x db = Ok db' -> incl (map fst db') (map fst db)) ->
  forall names db, incl (map fst (fst (each f names db))) (map fst db).
Proof.
  intros f F. induction names as [|x names IH]; intros db; [intros y H; exact H|]. cbn [each].
  destruct (f x db) as [d| |] eqn:E; [|intros y H; exact H|intros y H; exact H].
  intros y H. apply (F x db d E). now apply (IH d).
Qed.
Lemma drop_names : forall x db db', drop_table x db = Ok db' -> incl (map fst db') (map fst db).
Proof.
  intros x db db' H. unfold drop_table in H. destruct (exists_table x db); [|discriminate].
  injection H as <-. intros y I. rewrite map_map in I.
  apply in_map_iff in I. destruct I as ((z, t) & <- & I). apply filter_In in I. destruct I as (I & _).
  apply in_map_iff. exists (z, t). split; [|exact I]. unfold delete_files.
  now destruct (starts_with _ _).
Qed.
Lemma execute_names : forall s db, incl (map fst (fst (execute s db))) (map fst db).
Proof.
  intros [names|names cluster|names retention cluster] db; cbn [execute].
  - apply each_names. apply drop_names.
  - destruct cluster; [intros y H; exact H|]. apply each_names. intros x d d' E.
    unfold truncate_table in E. destruct (exists_table x d); [|discriminate]. injection E as <-.
    rewrite change_names. intros y H; exact H.
  - destruct cluster; [intros y H; exact H|]. apply each_names. intros x d d' E.
    unfold vacuum_table in E. destruct (exists_table x d); [|discriminate].
    destruct (time_delta _); [|discriminate]. injection E as <-.
    rewrite change_names. intros y H; exact H.
Qed.

Lemma step_lower : forall reserved db r, Forall no_upper (map fst db) ->
  Forall no_upper (map fst (step reserved db r)).
Proof.
  intros reserved db [value t|sql|x t] F; cbn [step].
  - destruct (create reserved value t db) as [d| |] eqn:E; [|exact F|exact F].
    rewrite (create_lower _ _ _ _ _ E), map_app. apply Forall_app. split; [exact F|].
    constructor; [apply lower_no_upper|constructor].
  - destruct (parse_sql sql) as [s| |]; [|exact F|exact F]. cbn [run].
    apply Forall_forall. intros y H. rewrite Forall_forall in F. apply F. now apply (execute_names s).
  - now rewrite change_names.
Qed.
Lemma history_lower : forall reserved requests, Forall no_upper (map fst (history reserved requests)).
Proof.
  intros reserved requests. unfold history.
  assert (G : forall db, Forall no_upper (map fst db) ->
            Forall no_upper (map fst (fold_left (step reserved) requests db))).
  { induction requests as [|r requests IH]; intros db F; [exact F|]. cbn [fold_left]. apply IH.
    now apply step_lower. }
  apply G. constructor.
Qed.

Lemma lookup_In : forall x db t, lookup x db = Some t -> In x (map fst db).
Proof.
  intros x db t. induction db as [|(y, u) db IH]; [discriminate|]. rewrite lookup_cons.
  destruct (String.eqb_spec y x) as [->|N]; intros E; [now left|right; now apply IH].
Qed.
Lemma upper_absent : forall reserved requests x c, upper_case c = true -> has_char c x ->
  lookup x (history reserved requests) = None.
Proof.
  intros reserved requests x c U H. destruct (lookup x _) as [t|] eqn:L; [|reflexivity].
  apply lookup_In in L. pose proof (history_lower reserved requests) as F.
  rewrite Forall_forall in F. now elim (F x L c U).
Qed.

Lemma upper_fails : forall reserved requests x c, plain x -> upper_case c = true -> has_char c x ->
  run (parse_sql ("DROP TABLE " ++ x)) (history reserved requests) = (history reserved requests, Err).
Proof.
  intros reserved requests x c Pl U H.
  change x with (join ", " [x]) at 1. rewrite drop_text by (discriminate || (constructor; auto)).
  cbn [run execute each]. unfold drop_table, exists_table.
  now rewrite (upper_absent reserved requests x c U H).
Qed.

(** Statements as they are written. *)
Lemma names_of_single : forall names : list (string * bool),
  map (fun n => fold_left String.append (map fst n) EmptyString) (map (fun n => [n]) names)
  = map fst names.
Proof. intros names. rewrite map_map. apply map_ext. reflexivity. Qed.

Lemma drop_written : forall names tokens db,
  drop_statement (map (fun n => [n]) names) tokens -> own_folders (map fst names) db ->
  carried_out (map fst names) dropped db (fst (run (parse_tokens tokens) db))
    (snd (run (parse_tokens tokens) db)).
Proof.
  intros names tokens db D O. rewrite (proj2 (accepted_drop tokens (map fst names))).
  - now apply drop_carried_out.
  - eexists. split; [exact D|]. symmetry. apply names_of_single.
Qed.
Lemma truncate_written : forall names tokens db, truncate_statement names false tokens ->
  carried_out (map fst names) emptied db (fst (run (parse_tokens tokens) db))
    (snd (run (parse_tokens tokens) db)).
Proof.
  intros names tokens db D. rewrite (proj2 (accepted_truncate tokens (map fst names) false)).
  - apply truncate_carried_out.
  - now exists names.
Qed.
Lemma vacuum_written : forall names retention tokens db,
  vacuum_statement names retention false tokens ->
  Forall (fun n => ~ has_char ";" (fst n)) names ->
  (names <> [] -> last (map fst names) EmptyString <> EmptyString) ->
  carried_out (match names with [] => map fst db | _ => map fst names end)
    (cleaned (match retention with Some period => period | None => 604800 end)) db
    (fst (run (parse_tokens tokens) db)) (snd (run (parse_tokens tokens) db)).
Proof.
  intros names retention tokens db D F L.
  rewrite (proj2 (accepted_vacuum tokens (map fst names) retention false)).
  - cbn [run]. pose proof D as (k & c & r & s & _ & _ & R & _).
    pose proof (vacuum_carried_out (map fst names) retention db (retention_bounds _ _ R)) as V.
    destruct names; exact V.
  - exists names. split; [exact D|]. symmetry. apply split_terminator_join.
    + now apply Forall_map.
    + intros N. apply L. now destruct names.
Qed.
Lemma cluster_refused : forall names tokens db, truncate_statement names true tokens ->
  run (parse_tokens tokens) db = (db, Err).
Proof.
  intros names tokens db D. rewrite (proj2 (accepted_truncate tokens (map fst names) true)).
  - reflexivity.
  - now exists names.
Qed.
Lemma cluster_vacuum_refused : forall names retention tokens db,
  vacuum_statement names retention true tokens -> run (parse_tokens tokens) db = (db, Err).
Proof.
  intros names retention tokens db D.
  rewrite (proj2 (accepted_vacuum tokens (split_terminator ";" (join ";" (map fst names))) retention true)).
  - reflexivity.
  - now exists names.
Qed.

Lemma upper_created : forall reserved requests x c t db', plain x -> upper_case c = true ->
  has_char c x -> create reserved x t (history reserved requests) = Ok db' ->
  lookup (map_string to_lower x) db' = Some t
  /\ run (parse_sql ("DROP TABLE " ++ x)) db' = (db', Err).
Proof.
  intros reserved requests x c t db' Pl U H C.
  assert (E : db' = history reserved (requests ++ [Create x t])).
  { unfold history. rewrite fold_left_app. cbn [fold_left step]. fold (history reserved requests).
    now rewrite C. }
  split.
  - pose proof (create_lower _ _ _ _ _ C) as ->. unfold create in C.
    unfold create_name in C.
    destruct (existsb _ _); [discriminate|]. destruct (reserved _); [discriminate|].
    destruct (forallb _ _); [|discriminate]. cbn [bind] in C.
    destruct (exists_table _ (history reserved requests)) eqn:X; [discriminate|]. clear C E.
    unfold exists_table in X. revert X. generalize (history reserved requests) as db.
    induction db as [|(y, u) db IH]; intros X.
    + cbn. unfold lookup. cbn. now rewrite String.eqb_refl.
    + cbn [app]. rewrite lookup_cons in *. destruct (String.eqb y _); [discriminate|]. now apply IH.
  - rewrite E. now apply (upper_fails reserved _ x c).
Qed.
