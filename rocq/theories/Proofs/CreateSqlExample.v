(** That CREATE TIME SERIES TABLE never panics, and a statement that is accepted. *)
From Coq Require Import ZArith Bool Ascii String List Lia.
From Verif Require Import Model.Base Model.Float Model.ErrorBound Model.Filters Model.Table Model.Sql
  Model.Statements Spec.TableSpec Spec.StatementSpec Proofs.SqlProofs Proofs.TableProofs
  Proofs.DefinitionProofs Proofs.StoredDefinitionProofs Proofs.DefinitionExample Model.CreateSql
  Spec.CreateSqlSpec Proofs.CreateSqlProofs.
Import ListNotations.
Open Scope string_scope.
Open Scope list_scope.

Lemma bind_no_panic : forall {A B} (o : outcome A) (f : A -> outcome B), o <> Panic ->
  (forall a, o = Ok a -> f a <> Panic) -> (let? a := o in f a) <> Panic.
Proof. intros A B [a| |] f H1 H2; cbn [bind]; [now apply H2|discriminate|].
  intros _. now apply H1.
Qed.

Lemma indices_no_panic : forall columns names, indices_of columns names <> Panic.
Proof.
  intros columns. induction names as [|n names IH]; cbn [indices_of]; [discriminate|].
  destruct (index_of columns n); [|discriminate]. apply bind_no_panic; [exact IH|discriminate].
Qed.
Lemma bounds_no_panic : forall defs, extract_error_bounds defs <> Panic.
Proof.
  induction defs as [|(n, k) defs IH]; cbn [extract_error_bounds]; [discriminate|].
  apply bind_no_panic.
  - destruct k as [|b r|e|]; try discriminate. destruct (has_error_bound b); [|discriminate].
    destruct r; unfold try_new_relative, try_new_absolute;
      match goal with |- (if ?c then _ else _) <> _ => destruct c; discriminate end.
  - intros b _. apply bind_no_panic; [exact IH|discriminate].
Qed.
Lemma exprs_no_panic : forall order columns defs, extract_exprs order columns defs <> Panic.
Proof.
  intros order columns. induction defs as [|(n, k) defs IH]; cbn [extract_exprs]; [discriminate|].
  apply bind_no_panic.
  - destruct k as [|b r|e|]; try discriminate. apply bind_no_panic; [|discriminate].
    unfold try_from_expr. apply bind_no_panic; [apply indices_no_panic|discriminate].
  - intros g _. apply bind_no_panic; [exact IH|discriminate].
Qed.
Lemma create_table_no_panic : forall order name defs, enumerates order ->
  create_table order name defs <> Panic.
Proof.
  intros order name defs O. unfold create_table.
  apply bind_no_panic; [apply bounds_no_panic|]. intros bounds _.
  apply bind_no_panic; [unfold to_dfschema; destruct (unique _); discriminate|]. intros columns Hc.
  apply to_dfschema_ok in Hc. destruct Hc as (-> & ND).
  apply bind_no_panic; [apply exprs_no_panic|]. intros generated Hg.
  apply try_new_no_panic. intros i g s Hi Hs.
  apply (extract_exprs_ok order _ _ _ O ND) in Hg.
  destruct (Forall2_nth_r _ _ _ Hg i _ Hi) as (d & _ & _ & _ & M & _).
  apply M in Hs. destruct Hs as (n & t & _ & Ht). apply nth_error_Some. congruence.
Qed.

Lemma parse_column_no_panic : forall parse_f32 parse_expr ts,
  (forall digits, parse_f32 digits <> Panic) -> (forall ts, parse_expr ts <> Panic) ->
  parse_column parse_f32 parse_expr ts <> Panic.
Proof.
  intros parse_f32 parse_expr ts Hf He. unfold parse_column.
  destruct ts as [|[n q| | | | | | | |] [|[v q'| | | | | | | |] ts]]; try discriminate.
  destruct (has_value "TIMESTAMP" v); [discriminate|].
  destruct (has_value "FIELD" v); [|destruct (has_value "TAG" v); discriminate].
  destruct ts as [|[w q2|d| | | | | | |c] ts]; try discriminate.
  - destruct (has_value "AS" w); [|discriminate]. destruct ts as [|[] ts]; try discriminate.
    apply bind_no_panic; [apply He|]. intros (e, rest) _. destruct rest as [|[] rest]; discriminate.
  - destruct ts as [|[|d| | | | | | |] ts]; try discriminate.
    apply bind_no_panic; [apply Hf|]. intros b _.
    destruct ts as [|[] ts]; try discriminate. destruct ts as [|[] ts]; discriminate.
Qed.
Lemma parse_columns_no_panic : forall parse_f32 parse_expr,
  (forall digits, parse_f32 digits <> Panic) -> (forall ts, parse_expr ts <> Panic) ->
  forall fuel ts, parse_columns parse_f32 parse_expr fuel ts <> Panic.
Proof.
  intros parse_f32 parse_expr Hf He. induction fuel as [|fuel IH]; intros ts;
    cbn [parse_columns]; [discriminate|].
  apply bind_no_panic; [now apply parse_column_no_panic|]. intros (c, rest) _.
  destruct rest as [|[] rest]; try discriminate.
  apply bind_no_panic; [apply IH|]. intros (cs, rest') _. discriminate.
Qed.
Lemma create_no_panic : forall parse_f32 parse_expr reserved order sql,
  (forall digits, parse_f32 digits <> Panic) -> (forall ts, parse_expr ts <> Panic) ->
  enumerates order -> create_statement parse_f32 parse_expr reserved order sql <> Panic.
Proof.
  intros parse_f32 parse_expr reserved order sql Hf He O. unfold create_statement.
  apply bind_no_panic.
  { unfold tokens_of. destruct (read_chars sql Start) as (ts, r).
    apply bind_no_panic; [destruct r; discriminate|discriminate]. }
  intros ts _. apply bind_no_panic.
  { unfold parse_create.
    destruct ts as [|c [|t [|s [|b [|[n q| | | | | | | |] [|[] rest]]]]]]; try discriminate.
    match goal with |- (if ?c then _ else _) <> _ => destruct c; [|discriminate] end.
    apply bind_no_panic; [now apply parse_columns_no_panic|]. intros (cs, stop) _.
    match goal with |- (if ?c then _ else _) <> _ => destruct c; discriminate end. }
  intros (value, columns) _. apply bind_no_panic.
  { unfold create_name. destruct (existsb _ _); [discriminate|]. destruct (reserved _); [discriminate|].
    destruct (forallb _ _); discriminate. }
  intros name _. now apply create_table_no_panic.
Qed.

(** The expressions [a] and [a * b], and the numbers without a point. *)
Definition product (ts : list token) : outcome (expr * list token) :=
  match ts with
  | Word a _ :: Symbol "*" :: Word b _ :: rest =>
      Ok (Binary (Column a) (Operator 2) (Column b), rest)
  | Word a _ :: rest => Ok (Column a, rest)
  | _ => Err
  end.
Lemma product_takes_first : takes_first product.
Proof.
  intros ts e rest H. unfold product in H.
  destruct ts as [|[a q| | | | | | | |] ts]; try discriminate.
  assert (S : ts = Close :: rest -> e = Column a ->
            exists first, Word a q :: ts = first ++ Close :: rest /\ expression product first e).
  { intros -> ->. exists [Word a q]. split; [reflexivity|]. intros r. reflexivity. }
  destruct ts as [|[| | | | | | | |c] ts]; try (apply S; congruence).
  destruct c as [[|] [|] [|] [|] [|] [|] [|] [|]]; try (apply S; congruence).
  destruct ts as [|[b q'| | | | | | | |] ts]; try (apply S; congruence).
  injection H as <- ->. exists [Word a q; Symbol "*"; Word b q']. split; [reflexivity|].
  intros r. reflexivity.
Qed.
Lemma product_no_panic : forall ts, product ts <> Panic.
Proof.
  intros ts. unfold product. destruct ts as [|[a q| | | | | | | |] ts]; try discriminate.
  destruct ts as [|[| | | | | | | |c] ts]; try discriminate.
  destruct c as [[|] [|] [|] [|] [|] [|] [|] [|]]; try discriminate.
  destruct ts as [|[b q'| | | | | | | |] ts]; discriminate.
Qed.
Definition integer (digits : list ascii) : outcome f32 :=
  if forallb digit digits
  then Ok (f32_of_Z (fold_left (fun z c => 10 * z + (Z.of_nat (nat_of_ascii c) - 48))%Z digits 0%Z))
  else Err.
Lemma integer_no_panic : forall digits, integer digits <> Panic.
Proof. intros digits. unfold integer. destruct (forallb _ _); discriminate. Qed.

Definition turbine_sql : string :=
  "create Time series TABLE Wind_Turbine (ts TIMESTAMP, ""park"" tag,
     power FIELD AS (speed * torque), Speed field, turbine TAG, torque FIELD(5%));".
Definition turbine_name : string * bool := ("wind_turbine", false).
Definition turbine_asked : list ((string * bool) * asked) :=
  [(("ts", false), Ask_timestamp); (("park", true), Ask_tag);
   (("power", false), Ask_expression "speed * torque"); (("Speed", false), Ask_field);
   (("turbine", false), Ask_tag); (("torque", false), Ask_bound "5" true)].


Lemma turbine_parsed : tokens_of turbine_sql = Ok
  [Word "create" false; Word "Time" false; Word "series" false; Word "TABLE" false;
   Word "Wind_Turbine" false; Open; Word "ts" false; Word "TIMESTAMP" false; Comma;
   Word "park" true; Word "tag" false; Comma; Word "power" false; Word "FIELD" false;
   Word "AS" false; Open; Word "speed" false; Symbol "*"; Word "torque" false; Close; Comma;
   Word "Speed" false; Word "field" false; Comma; Word "turbine" false; Word "TAG" false; Comma;
   Word "torque" false; Word "FIELD" false; Open; Number ["5"%char]; Percent; Close; Close;
   Semicolon].
Proof. vm_compute. reflexivity. Qed.
Lemma five_parsed : integer ["5"%char] = Ok (f32_of_Z 5).
Proof. reflexivity. Qed.

Lemma turbine_statement :
  create_statement integer product (fun _ => false) same_order turbine_sql = Ok turbine_table.
Proof.
  unfold create_statement. rewrite turbine_parsed. cbn [bind].
  match goal with |- bind (parse_create _ _ ?ts) _ = _ =>
    assert (E : parse_create integer product ts = Ok ("Wind_Turbine", turbine_defs)) end.
  { apply (create_iff _ _ product_takes_first).
    assert (W : forall w v q, map_string to_upper v = w -> spelled w (Word v q))
      by (intros w v q H; now exists v, q).
    exists (Word "create" false), (Word "Time" false), (Word "series" false), (Word "TABLE" false),
      false, ([Word "ts" false; Word "TIMESTAMP" false] ++ Comma
      :: [Word "park" true; Word "tag" false] ++ Comma
      :: ([Word "power" false; Word "FIELD" false; Word "AS" false; Open]
          ++ [Word "speed" false; Symbol "*"; Word "torque" false] ++ [Close]) ++ Comma
      :: [Word "Speed" false; Word "field" false] ++ Comma
      :: [Word "turbine" false; Word "TAG" false] ++ Comma
      :: [Word "torque" false; Word "FIELD" false; Open; Number ["5"%char]; Percent; Close]),
      [Semicolon].
    split; [reflexivity|]. split; [now exists "create"|]. split; [now apply W|].
    split; [now apply W|]. split; [now exists "TABLE"|]. split; [|repeat constructor].
    apply (More_columns _ _ _ ("ts", Timestamp_column));
      [apply (Timestamp_written _ _ "ts"); now apply W|].
    apply (More_columns _ _ _ ("park", Tag_column)); [apply (Tag_written _ _ "park"); now apply W|].
    apply More_columns.
    { apply (Generated_written _ _ "power"); [now apply W|now apply W|intros rest; reflexivity]. }
    apply (More_columns _ _ _ ("speed", Field_column f32_zero false));
      [apply (Field_written _ _ "Speed"); now apply W|].
    apply (More_columns _ _ _ ("turbine", Tag_column));
      [apply (Tag_written _ _ "turbine"); now apply W|].
    apply Last_column. apply (Relative_written _ _ "torque"); [now apply W|exact five_parsed]. }
  rewrite E. cbn [bind]. exact turbine_created.
Qed.

Lemma turbine_columns : Forall2 (column_asked integer product) turbine_asked turbine_defs.
Proof.
  assert (P : forall c s, identifier_start c = true ->
            forallb identifier_part (list_ascii_of_string s) = true ->
            can_be_written (String c s, false)).
  { intros c s H1 H2. exact (plain_bool c s H1 H2). }
  unfold turbine_asked, turbine_defs.
  apply Forall2_cons; [|apply Forall2_cons; [|apply Forall2_cons; [|apply Forall2_cons;
    [|apply Forall2_cons; [|apply Forall2_cons; [|apply Forall2_nil]]]]]];
    (split; [|split; [reflexivity|]]); cbn [fst snd];
    try (apply P; reflexivity).
  - reflexivity.
  - cbn. intuition congruence.
  - reflexivity.
  - exists [Word "speed" false; Symbol "*"; Word "torque" false],
      (Binary (Column "speed") (Operator 2) (Column "torque")).
    split; [reflexivity|]. split; [reflexivity|]. intros rest. reflexivity.
  - reflexivity.
  - reflexivity.
  - exists (f32_of_Z 5). split; [reflexivity|]. split; [|exact five_parsed].
    exists "5"%char, EmptyString. split; [reflexivity|]. split; [reflexivity|constructor].
Qed.

Definition small_sql (table column : string) : string :=
  "CREATE TIME SERIES TABLE """ ++ table ++ """ (""" ++ column ++ """ TIMESTAMP, value FIELD)".
Definition small_table (table column : string) : metadata :=
  Metadata table 0 [1] [] [Lossless; Lossless] [None; None]
    [(column, Timestamp_us); ("value", Float32)] [(column, Timestamp_us); ("value", Float32)]
    [0; 1] base_compressed_schema.
Lemma small_created : forall parse_f32 parse_expr order table column,
  In (table, column) [("A", "TS"); ("a", "ts"); ("", "")] ->
  create_statement parse_f32 parse_expr (fun _ => false) order (small_sql table column)
  = Ok (small_table (map_string to_lower table) (map_string to_lower column)).
Proof.
  intros parse_f32 parse_expr order table column [E|[E|[E|[]]]]; injection E as <- <-;
    reflexivity.
Qed.
