(** Proofs about reading a time series table. *)
From Coq Require Import ZArith Bool Ascii String List Lia.
From Verif Require Import Model.Base Model.Sql Spec.StatementSpec Proofs.SqlProofs Model.Reads
  Spec.ReadsSpec.
Import ListNotations.
Open Scope string_scope.
Open Scope list_scope.

(** Reading text that is written one after another. *)
Definition prepend (ts : list token) (p : list token * reading) : list token * reading :=
  (ts ++ fst p, snd p).
Lemma read_app : forall a b r,
  read_chars (a ++ b) r = prepend (fst (read_chars a r)) (read_chars b (snd (read_chars a r))).
Proof.
  induction a as [|c a IH]; intros b r.
  - cbn [append read_chars fst snd]. now destruct (read_chars b r).
  - cbn [append read_chars]. destruct (read_char r c) as (ts, r'). rewrite (IH b r').
    destruct (read_chars a r') as (ts', r''). unfold prepend. cbn [fst snd].
    now rewrite app_assoc.
Qed.

(** A character that ends a name or a text. *)
Definition ends (c : ascii) : Prop := identifier_part c = false /\ Ascii.eqb c "'" = false.

Definition ended (r : reading) (ts : list token) : Prop :=
  at_end r = Ok ts /\ forall c, ends c -> read_char r c = prepend ts (begin c).

(** The text is read as the tokens if it is followed by nothing, or by a character that ends it. *)
Definition lexes (s : string) (ts : list token) : Prop :=
  exists ts1 r ts2, read_chars s Start = (ts1, r) /\ ended r ts2 /\ ts = ts1 ++ ts2.

Lemma ended_start : ended Start [].
Proof. split; [reflexivity|]. intros c _. cbn [read_char]. now destruct (begin c). Qed.
Lemma ended_name : forall w, ended (In_name w) [Name (text w) false].
Proof.
  intros w. split; [reflexivity|]. intros c (E & _). cbn [read_char]. rewrite E. unfold after.
  now destruct (begin c).
Qed.
Lemma ended_text : forall w, ended (After_text w) [Text (text w)].
Proof.
  intros w. split; [reflexivity|]. intros c (_ & E). cbn [read_char]. rewrite E. unfold after.
  now destruct (begin c).
Qed.

Lemma lexes_tokens : forall s ts, lexes s ts -> tokens_of s = Ok ts.
Proof.
  intros s ts (ts1 & r & ts2 & R & (E & _) & ->). unfold tokens_of. rewrite R. cbn [fst snd].
  now rewrite E.
Qed.
Lemma lexes_nil : lexes "" [].
Proof. exists [], Start, []. split; [reflexivity|]. split; [apply ended_start|reflexivity]. Qed.

Lemma lexes_app : forall a ta c b tb, lexes a ta -> ends c -> lexes (String c b) tb ->
  lexes (a ++ String c b) (ta ++ tb).
Proof.
  intros a ta c b tb (ts1 & r & ts2 & R & E & ->) Hc (us1 & u & us2 & U & F & ->).
  exists (ts1 ++ ts2 ++ us1), u, us2. split; [|split; [exact F|now rewrite !app_assoc]].
  rewrite read_app, R. cbn [fst snd]. destruct E as (_ & E).
  cbn [read_chars] in U |- *. rewrite (E c Hc). change (read_char Start c) with (begin c) in U.
  destruct (begin c) as (ts, r'). unfold prepend. cbn [fst snd].
  destruct (read_chars b r') as (rest, r''). cbn [fst snd].
  assert (ts ++ rest = us1 /\ r'' = u) as (<- & <-) by (split; congruence).
  now rewrite !app_assoc.
Qed.

(** Text that ends with a token. *)
Definition closed (s : string) (ts : list token) : Prop := read_chars s Start = (ts, Start).
Lemma closed_lexes : forall a ta b tb, closed a ta -> lexes b tb -> lexes (a ++ b) (ta ++ tb).
Proof.
  intros a ta b tb A (us1 & u & us2 & U & F & ->). exists (ta ++ us1), u, us2.
  split; [|split; [exact F|now rewrite app_assoc]]. rewrite read_app, A. cbn [fst snd]. now rewrite U.
Qed.
Lemma closed_only : forall a ta, closed a ta -> lexes a ta.
Proof.
  intros a ta A. exists ta, Start, []. split; [exact A|]. split; [apply ended_start|].
  now rewrite app_nil_r.
Qed.

(** Names and texts. *)
Lemma read_part : forall s w, Forall (fun c => identifier_part c = true) (list_ascii_of_string s) ->
  read_chars s (In_name w) = ([], In_name (rev (list_ascii_of_string s) ++ w)).
Proof.
  induction s as [|c s IH]; intros w F; [reflexivity|]. cbn [list_ascii_of_string] in *.
  inversion F as [|? ? F1 F2]; subst. cbn [read_chars read_char]. rewrite F1, (IH (c :: w) F2).
  cbn [rev app]. now rewrite <- app_assoc.
Qed.
Lemma lexes_name : forall n, plain n -> lexes n [Name n false].
Proof.
  intros n (c & s & -> & Hc & Hs). exists [], (In_name (rev (list_ascii_of_string s) ++ [c])).
  exists [Name (text (rev (list_ascii_of_string s) ++ [c])) false]. split; [|split].
  - cbn [read_chars read_char]. unfold begin. rewrite (start_not_space c Hc), Hc.
    now rewrite (read_part s [c] Hs).
  - apply ended_name.
  - cbn [app]. do 2 f_equal. unfold text. rewrite rev_app_distr, rev_involutive.
    cbn [rev app string_of_list_ascii]. now rewrite string_of_list_ascii_of_string.
Qed.

Lemma read_inside : forall s w, no_quote s ->
  read_chars s (In_text w) = ([], In_text (rev (list_ascii_of_string s) ++ w)).
Proof.
  induction s as [|c s IH]; intros w F; [reflexivity|]. cbn [read_chars read_char].
  destruct (Ascii.eqb_spec c "'") as [E|N].
  - destruct F. now left.
  - rewrite (IH (c :: w)) by (intros X; apply F; now right). cbn [list_ascii_of_string rev app].
    now rewrite <- app_assoc.
Qed.
Lemma lexes_text : forall s, no_quote s -> lexes ("'" ++ s ++ "'") [Text s].
Proof.
  intros s F. exists [], (After_text (rev (list_ascii_of_string s))), [Text s].
  split; [|split; [|reflexivity]].
  - cbn [append read_chars read_char]. change (begin "'") with (@nil token, In_text []). cbn iota.
    rewrite read_app, read_inside by exact F. cbn [fst snd]. rewrite app_nil_r. reflexivity.
  - replace s with (text (rev (list_ascii_of_string s))) at 2.
    + apply ended_text.
    + unfold text. now rewrite rev_involutive, string_of_list_ascii_of_string.
Qed.

Lemma read_doubled : forall s w,
  read_chars (double_quotes s) (In_text w) = ([], In_text (rev (list_ascii_of_string s) ++ w)).
Proof.
  induction s as [|c s IH]; intros w; [reflexivity|]. cbn [double_quotes].
  destruct (Ascii.eqb_spec c "'") as [E|N].
  - subst c. cbn [read_chars]. change (read_char (In_text w) "'") with (@nil token, After_text w).
    cbn iota. change (read_char (After_text w) "'") with (@nil token, In_text ("'"%char :: w)).
    cbn iota. rewrite IH.
    cbn [list_ascii_of_string rev app]. now rewrite <- app_assoc.
  - cbn [read_chars read_char]. apply Ascii.eqb_neq in N. rewrite N. rewrite (IH (c :: w)).
    cbn [list_ascii_of_string rev app]. now rewrite <- app_assoc.
Qed.
Lemma lexes_doubled : forall s, lexes ("'" ++ double_quotes s ++ "'") [Text s].
Proof.
  intros s. exists [], (After_text (rev (list_ascii_of_string s))), [Text s].
  split; [|split; [|reflexivity]].
  - cbn [append read_chars read_char]. change (begin "'") with (@nil token, In_text []). cbn iota.
    rewrite read_app, read_doubled. cbn [fst snd]. rewrite app_nil_r. reflexivity.
  - replace s with (text (rev (list_ascii_of_string s))) at 2.
    + apply ended_text.
    + unfold text. now rewrite rev_involutive, string_of_list_ascii_of_string.
Qed.

Lemma space_ends : ends " ". Proof. split; reflexivity. Qed.
Lemma comma_ends : ends ",". Proof. split; reflexivity. Qed.
Lemma open_ends : ends "(". Proof. split; reflexivity. Qed.
Lemma close_ends : ends ")". Proof. split; reflexivity. Qed.

(** Lists separated by commas. *)
Fixpoint separated (separator : list token) (l : list (list token)) : list token :=
  match l with
  | [] => []
  | [ts] => ts
  | ts :: l => ts ++ separator ++ separated separator l
  end.
Lemma separated_cons : forall sep ts l, l <> [] ->
  separated sep (ts :: l) = ts ++ sep ++ separated sep l.
Proof. intros sep ts [|u l] H; [contradiction|reflexivity]. Qed.

Lemma lexes_join : forall c s sep l tl, ends c -> closed (String c s) sep ->
  Forall2 lexes l tl -> l <> [] -> lexes (join (String c s) l) (separated sep tl).
Proof.
  intros c s sep l tl Hc Hs F. induction F as [|a ta l tl A F IH]; intros N; [contradiction|].
  destruct l as [|b l].
  - inversion F; subst. exact A.
  - rewrite join_cons by discriminate. rewrite separated_cons by (inversion F; discriminate).
    change (String c s ++ join (String c s) (b :: l))%string
      with (String c (s ++ join (String c s) (b :: l))).
    apply lexes_app; [exact A|exact Hc|].
    change (String c (s ++ join (String c s) (b :: l)))
      with (String c s ++ join (String c s) (b :: l))%string.
    apply closed_lexes; [exact Hs|]. now apply IH.
Qed.

(** The tokens of a request. *)
Definition item_tokens (c : string * aggregate) : list token :=
  match function_of (snd c) with
  | None => [Name (fst c) false]
  | Some f => [Name f false; Open; Name (fst c) false; Close]
  end.
Definition items_of (l : list (string * kind)) (r : request) : list (string * aggregate) :=
  match columns r with [] => map (fun c => (fst c, Plain)) l | cs => cs end.
Definition condition_tokens (r : request) : list (list token) :=
  map (fun t => [Name (fst t) false; Equal; Text (snd t)]) (tags r)
  ++ match start_time r with
     | Some t => [[Text t; Less_equal; Name "timestamp" false]]
     | None => []
     end
  ++ match end_time r with
     | Some t => [[Name "timestamp" false; Less_equal; Text t]]
     | None => []
     end.
Definition where_tokens (r : request) : list token :=
  match condition_tokens r with
  | [] => []
  | cs => Name "WHERE" false :: separated [Name "AND" false] cs
  end.
Definition group_tokens (r : request) : list token :=
  match group_by r with
  | [] => []
  | names => Name "GROUP" false :: Name "BY" false
             :: separated [Comma] (map (fun n => [Name n false]) names)
  end.

Lemma lexes_function : forall f c, plain f -> plain c ->
  lexes (f ++ "(" ++ c ++ ")") [Name f false; Open; Name c false; Close].
Proof.
  intros f c Hf Hc. change [Name f false; Open; Name c false; Close]
    with ([Name f false] ++ [Open] ++ [Name c false] ++ [Close]).
  change ("(" ++ c ++ ")")%string with (String "(" (c ++ ")")).
  apply lexes_app; [now apply lexes_name|apply open_ends|].
  change (String "(" (c ++ ")")) with ("(" ++ (c ++ ")"))%string.
  apply closed_lexes; [reflexivity|]. change ")"%string with (String ")" "").
  apply lexes_app; [now apply lexes_name|apply close_ends|]. now apply closed_only.
Qed.
Lemma lexes_item : forall c, plain (fst c) -> lexes (select_value c) (item_tokens c).
Proof.
  intros (c, a) P. cbn [fst] in P.
  destruct a; unfold select_value, item_tokens; cbn [function_of fst snd];
    [now apply lexes_name|..].
  - apply (lexes_function "COUNT"); [now apply plain_bool|exact P].
  - apply (lexes_function "MIN"); [now apply plain_bool|exact P].
  - apply (lexes_function "MAX"); [now apply plain_bool|exact P].
  - apply (lexes_function "SUM"); [now apply plain_bool|exact P].
  - apply (lexes_function "AVG"); [now apply plain_bool|exact P].
Qed.
Lemma lexes_tag : forall n v, plain n -> no_quote v ->
  lexes (n ++ " = '" ++ v ++ "'") [Name n false; Equal; Text v].
Proof.
  intros n v P Q. change [Name n false; Equal; Text v] with ([Name n false] ++ [Equal] ++ [Text v]).
  change (" = '" ++ v ++ "'")%string with (String " " ("= " ++ ("'" ++ v ++ "'"))).
  apply lexes_app; [now apply lexes_name|apply space_ends|].
  change (String " " ("= " ++ ("'" ++ v ++ "'"))) with (" = " ++ ("'" ++ v ++ "'"))%string.
  apply closed_lexes; [reflexivity|]. now apply lexes_text.
Qed.
Lemma lexes_doubled_tag : forall n v, plain n ->
  lexes (n ++ " = '" ++ double_quotes v ++ "'") [Name n false; Equal; Text v].
Proof.
  intros n v P. change [Name n false; Equal; Text v] with ([Name n false] ++ [Equal] ++ [Text v]).
  change (" = '" ++ double_quotes v ++ "'")%string with (String " " ("= " ++ ("'" ++ double_quotes v ++ "'"))).
  apply lexes_app; [now apply lexes_name|apply space_ends|].
  change (String " " ("= " ++ ("'" ++ double_quotes v ++ "'"))) with (" = " ++ ("'" ++ double_quotes v ++ "'"))%string.
  apply closed_lexes; [reflexivity|]. apply lexes_doubled.
Qed.
Lemma plain_timestamp : plain "timestamp". Proof. now apply plain_bool. Qed.
Lemma lexes_start : forall s, no_quote s ->
  lexes ("'" ++ s ++ "' <= timestamp") [Text s; Less_equal; Name "timestamp" false].
Proof.
  intros s Q. change [Text s; Less_equal; Name "timestamp" false]
    with ([Text s] ++ [Less_equal] ++ [Name "timestamp" false]).
  replace ("'" ++ s ++ "' <= timestamp")%string
    with (("'" ++ s ++ "'") ++ String " " ("<= " ++ "timestamp"))%string.
  - apply lexes_app; [now apply lexes_text|apply space_ends|].
    change (String " " ("<= " ++ "timestamp")) with (" <= " ++ "timestamp")%string.
    apply closed_lexes; [reflexivity|]. apply lexes_name, plain_timestamp.
  - cbn [append]. f_equal. clear Q. induction s as [|c s IH]; [reflexivity|]. cbn [append]. now rewrite IH.
Qed.
Lemma lexes_end : forall s, no_quote s ->
  lexes ("timestamp <= '" ++ s ++ "'") [Name "timestamp" false; Less_equal; Text s].
Proof.
  intros s Q. change [Name "timestamp" false; Less_equal; Text s]
    with ([Name "timestamp" false; Less_equal] ++ [Text s]).
  change ("timestamp <= '" ++ s ++ "'")%string with ("timestamp <= " ++ ("'" ++ s ++ "'"))%string.
  apply closed_lexes; [reflexivity|now apply lexes_text].
Qed.

Lemma Forall2_map_both : forall (A B C : Type) (R : B -> C -> Prop) (f : A -> B) (g : A -> C) l,
  (forall a, In a l -> R (f a) (g a)) -> Forall2 R (map f l) (map g l).
Proof.
  intros A B C R f g. induction l as [|a l IH]; intros H; cbn [map]; constructor.
  - apply H. now left.
  - apply IH. intros b Hb. apply H. now right.
Qed.

Lemma lexes_conditions : forall r,
  (forall c v, In (c, v) (tags r) -> plain c /\ no_quote v) ->
  (forall s, start_time r = Some s \/ end_time r = Some s -> no_quote s) ->
  Forall2 lexes (where_values r) (condition_tokens r).
Proof.
  intros r T Q. unfold where_values, condition_tokens. apply Forall2_app; [|apply Forall2_app].
  - apply Forall2_map_both. intros (n, v) Hn. destruct (T n v Hn). now apply lexes_tag.
  - destruct (start_time r) as [s|]; [|constructor]. constructor; [|constructor].
    apply lexes_start, Q. now left.
  - destruct (end_time r) as [s|]; [|constructor]. constructor; [|constructor].
    apply lexes_end, Q. now right.
Qed.
Lemma lexes_doubled_conditions : forall r,
  (forall c v, In (c, v) (tags r) -> plain c) ->
  (forall s, start_time r = Some s \/ end_time r = Some s -> no_quote s) ->
  Forall2 lexes (where_values (with_quotes r)) (condition_tokens r).
Proof.
  intros r T Q. unfold where_values, condition_tokens, with_quotes. cbn [tags start_time end_time].
  rewrite map_map. apply Forall2_app; [|apply Forall2_app].
  - apply Forall2_map_both. intros (n, v) Hn. specialize (T n v Hn). now apply lexes_doubled_tag.
  - destruct (start_time r) as [s|]; [|constructor]. constructor; [|constructor].
    apply lexes_start, Q. now left.
  - destruct (end_time r) as [s|]; [|constructor]. constructor; [|constructor].
    apply lexes_end, Q. now right.
Qed.

(** [w] is written for the request [r]. *)
Definition stands_for (w r : request) : Prop :=
  columns w = columns r /\ group_by w = group_by r
  /\ Forall2 lexes (where_values w) (condition_tokens r).

Lemma select_items : forall l r,
  select_values (map fst l) r = map select_value (items_of l r).
Proof.
  intros l r. unfold select_values, items_of. destruct (columns r) as [|c cs]; [|reflexivity].
  cbn [map]. rewrite map_map. cbn [select_value]. reflexivity.
Qed.

(** The text that is generated is read as the tokens of the request. *)
Lemma generated_for : forall x l w r, plain x -> l <> [] ->
  (forall c a, In (c, a) (items_of l r) -> plain c) -> Forall plain (group_by r) ->
  stands_for w r ->
  tokens_of (generate_sql x (map fst l) w)
  = Ok (Name "SELECT" false :: separated [Comma] (map item_tokens (items_of l r))
        ++ Name "FROM" false :: Name x false :: where_tokens r ++ group_tokens r).
Proof.
  intros x l w r X L I G (Cw & Gw & W). apply lexes_tokens. unfold generate_sql. rewrite select_items.
  replace (items_of l w) with (items_of l r) by (unfold items_of; now rewrite Cw). rewrite Gw.
  change (Name "SELECT" false :: separated [Comma] (map item_tokens (items_of l r))
        ++ Name "FROM" false :: Name x false :: where_tokens r ++ group_tokens r)
    with ([Name "SELECT" false] ++ (separated [Comma] (map item_tokens (items_of l r))
        ++ ([Name "FROM" false] ++ ([Name x false] ++ (where_tokens r ++ group_tokens r))))).
  apply closed_lexes; [reflexivity|].
  assert (N : items_of l r <> []).
  { unfold items_of. destruct (columns r); [|discriminate]. now destruct l. }
  apply (lexes_app _ _ " "); [|apply space_ends|].
  { apply lexes_join; [apply comma_ends|reflexivity| |now destruct (items_of l r)].
    apply Forall2_map_both. intros (c, a) Hc. apply lexes_item. now apply (I c a). }
  apply (closed_lexes " FROM "); [reflexivity|].
  apply (lexes_app _ _ " "); [now apply lexes_name|apply space_ends|].
  apply (closed_lexes " " []); [reflexivity|].
  assert (Gr : lexes (" " ++ match group_by r with
                             | [] => ""
                             | names => "GROUP BY " ++ join ", " names
                             end)%string (group_tokens r)).
  { apply (closed_lexes " " []); [reflexivity|]. unfold group_tokens.
    destruct (group_by r) as [|n names] eqn:E; [apply lexes_nil|].
    apply (closed_lexes "GROUP BY " [Name "GROUP" false; Name "BY" false]); [reflexivity|].
    apply lexes_join; [apply comma_ends|reflexivity| |discriminate].
    rewrite <- (map_id (n :: names)) at 1. apply Forall2_map_both. intros m Hm. apply lexes_name.
    rewrite Forall_forall in G. now apply G. }
  unfold where_tokens.
  destruct (where_values w) as [|v vs], (condition_tokens r) as [|ts tss];
    [|inversion W|inversion W|].
  - exact Gr.
  - match goal with |- lexes ?s _ => change (lexes s ([Name "WHERE" false]
      ++ (separated [Name "AND" false] (ts :: tss) ++ group_tokens r))) end.
    assert (A : forall a b c : string, ((a ++ b) ++ c)%string = (a ++ (b ++ c))%string).
    { clear. intros a b c. induction a as [|d a IH]; [reflexivity|]. cbn [append]. now rewrite IH. }
    rewrite A. apply closed_lexes; [reflexivity|]. apply lexes_app; [|apply space_ends|exact Gr].
    apply lexes_join; [apply space_ends|reflexivity|exact W|discriminate].
Qed.
Lemma generated_tokens : forall x l r, plain x -> l <> [] ->
  (forall c a, In (c, a) (items_of l r) -> plain c) -> Forall plain (group_by r) ->
  (forall c v, In (c, v) (tags r) -> plain c /\ no_quote v) ->
  (forall s, start_time r = Some s \/ end_time r = Some s -> no_quote s) ->
  tokens_of (generate_sql x (map fst l) r)
  = Ok (Name "SELECT" false :: separated [Comma] (map item_tokens (items_of l r))
        ++ Name "FROM" false :: Name x false :: where_tokens r ++ group_tokens r).
Proof.
  intros x l r X L I G T Q. apply generated_for; try assumption.
  split; [reflexivity|]. split; [reflexivity|]. now apply lexes_conditions.
Qed.

(** The tokens of the request are parsed as the query. *)
Section Parser.
Variable reserved : string -> bool.

Lemma identifier_simple : forall n, simple reserved n -> identifier reserved n false = Ok n.
Proof. intros n (_ & L & R). unfold identifier. now rewrite R, L. Qed.

Definition not_comma (ts : list token) : Prop := match ts with Comma :: _ => False | _ => True end.
Definition not_open (ts : list token) : Prop := match ts with Open :: _ => False | _ => True end.

Definition item_of (c : string * aggregate) : option string * string :=
  (function_of (snd c), fst c).

Lemma parse_one_item : forall c rest, simple reserved (fst c) -> not_open rest ->
  parse_items reserved (item_tokens c ++ rest)
  = match rest with
    | Comma :: rest => let? (items, rest) := parse_items reserved rest in Ok (item_of c :: items, rest)
    | _ => Ok ([item_of c], rest)
    end.
Proof.
  intros (c, a) rest S N. cbn [fst] in S. apply identifier_simple in S.
  destruct a; unfold item_tokens; cbn [function_of fst snd app parse_items]; rewrite ?S; cbn [bind];
    try reflexivity.
  destruct rest as [|[] rest]; cbn [parse_items]; rewrite ?S; cbn [bind]; reflexivity || contradiction.
Qed.
Lemma parse_all_items : forall cs rest, cs <> [] -> Forall (fun c => simple reserved (fst c)) cs ->
  not_open rest -> not_comma rest ->
  parse_items reserved (separated [Comma] (map item_tokens cs) ++ rest) = Ok (map item_of cs, rest).
Proof.
  induction cs as [|c cs IH]; intros rest N F O C; [contradiction|].
  inversion F as [|? ? F1 F2]; subst. destruct cs as [|d cs].
  - cbn [map separated]. rewrite parse_one_item by assumption. destruct rest as [|[] rest]; reflexivity || contradiction.
  - cbn [map]. rewrite separated_cons by discriminate. rewrite <- !app_assoc. cbn [app].
    rewrite parse_one_item by (exact F1 || exact I).
    change (item_tokens d :: map item_tokens cs) with (map item_tokens (d :: cs)).
    rewrite IH by (discriminate || assumption). reflexivity.
Qed.

Lemma parse_names_columns : forall names rest, names <> [] -> Forall (simple reserved) names ->
  not_comma rest ->
  parse_columns reserved (separated [Comma] (map (fun n => [Name n false]) names) ++ rest)
  = Ok (names, rest).
Proof.
  induction names as [|n names IH]; intros rest N F C; [contradiction|].
  inversion F as [|? ? F1 F2]; subst. destruct names as [|m names].
  - cbn [map separated app parse_columns]. rewrite identifier_simple by exact F1. cbn [bind].
    destruct rest as [|[] rest]; reflexivity || contradiction.
  - cbn [map]. rewrite separated_cons by discriminate. rewrite <- !app_assoc. cbn [app parse_columns].
    rewrite identifier_simple by exact F1. cbn [bind].
    change ([Name m false] :: map (fun n => [Name n false]) names)
      with (map (fun n => [Name n false]) (m :: names)).
    rewrite IH by (discriminate || assumption). reflexivity.
Qed.

Definition comparisons_of (r : request) : list comparison :=
  map (fun t => Compare (Column (fst t)) true (Literal (snd t))) (tags r)
  ++ match start_time r with
     | Some t => [Compare (Literal t) false (Column "timestamp")]
     | None => []
     end
  ++ match end_time r with
     | Some t => [Compare (Column "timestamp") false (Literal t)]
     | None => []
     end.

(** One comparison. *)
Definition reads_as (ts : list token) (c : comparison) : Prop :=
  exists a op b, ts = [a; op; b] /\ parse_operand reserved a = Ok (left_side c)
    /\ parse_operand reserved b = Ok (right_side c) /\ op = if equal c then Equal else Less_equal.

Definition not_connected (ts : list token) : Prop :=
  match ts with t :: _ => keyword "AND" t = false /\ keyword "OR" t = false | [] => True end.

Lemma parse_conditions : forall tss cs rest, Forall2 reads_as tss cs -> cs <> [] ->
  not_connected rest ->
  parse_condition reserved (separated [Name "AND" false] tss ++ rest) = Ok ([cs], rest).
Proof.
  intros tss cs rest F. induction F as [|ts c tss cs H F IH]; intros N R; [contradiction|].
  destruct H as (a & op & b & -> & Ha & Hb & Hop).
  assert (Op : match op with Equal => Ok true | Less_equal => Ok false | _ => Err end = Ok (equal c)).
  { rewrite Hop. now destruct (equal c). }
  assert (C : Compare (left_side c) (equal c) (right_side c) = c) by now destruct c.
  destruct tss as [|us tss].
  - inversion F; subst cs. cbn [separated app parse_condition].
    rewrite Ha. cbn [bind]. rewrite Op. cbn [bind]. rewrite Hb. cbn [bind]. rewrite C.
    destruct rest as [|t rest]; [reflexivity|]. destruct R as (-> & ->). reflexivity.
  - rewrite separated_cons by discriminate. rewrite <- !app_assoc. cbn [app parse_condition].
    rewrite Ha. cbn [bind]. rewrite Op. cbn [bind]. rewrite Hb. cbn [bind].
    change (keyword "AND" (Name "AND" false)) with true. cbn iota.
    rewrite IH by (exact R || (inversion F; discriminate)). cbn [bind]. now rewrite C.
Qed.

Lemma conditions_read : forall r, (forall c v, In (c, v) (tags r) -> simple reserved c) ->
  (start_time r <> None \/ end_time r <> None -> simple reserved "timestamp") ->
  Forall2 reads_as (condition_tokens r) (comparisons_of r).
Proof.
  intros r T S. unfold condition_tokens, comparisons_of. apply Forall2_app; [|apply Forall2_app].
  - apply Forall2_map_both. intros (n, v) Hn. exists (Name n false), Equal, (Text v).
    split; [reflexivity|]. split; [|split; reflexivity]. cbn [parse_operand fst left_side].
    now rewrite (identifier_simple n (T n v Hn)).
  - destruct (start_time r) as [s|]; [|constructor]. constructor; [|constructor].
    exists (Text s), Less_equal, (Name "timestamp" false). split; [reflexivity|].
    split; [reflexivity|]. split; [|reflexivity]. cbn [parse_operand right_side].
    rewrite identifier_simple; [reflexivity|]. apply S. now left.
  - destruct (end_time r) as [s|]; [|constructor]. constructor; [|constructor].
    exists (Name "timestamp" false), Less_equal, (Text s). split; [reflexivity|].
    split; [|split; reflexivity]. cbn [parse_operand left_side].
    rewrite identifier_simple; [reflexivity|]. apply S. now right.
Qed.

Lemma group_not_where : forall r, match group_tokens r with t :: _ => keyword "WHERE" t = false | [] => True end.
Proof. intros r. unfold group_tokens. now destruct (group_by r). Qed.
Lemma group_not_connected : forall r, not_connected (group_tokens r).
Proof. intros r. unfold group_tokens. destruct (group_by r); [exact I|split; reflexivity]. Qed.

Lemma parse_where_written : forall r, Forall2 reads_as (condition_tokens r) (comparisons_of r) ->
  parse_where reserved (where_tokens r ++ group_tokens r)
  = Ok (match comparisons_of r with [] => [] | cs => [cs] end, group_tokens r).
Proof.
  intros r F. unfold where_tokens.
  destruct (condition_tokens r) as [|ts tss] eqn:Et, (comparisons_of r) as [|c cs];
    [|inversion F|inversion F|].
  - cbn [app]. pose proof (group_not_where r) as G. destruct (group_tokens r) as [|t rest]; [reflexivity|].
    cbn [parse_where]. now rewrite G.
  - cbn [app parse_where]. change (keyword "WHERE" (Name "WHERE" false)) with true. cbn iota.
    apply parse_conditions; [exact F|discriminate|apply group_not_connected].
Qed.
Lemma parse_group_written : forall r, Forall (simple reserved) (group_by r) ->
  parse_group_by reserved (group_tokens r) = Ok (group_by r, []).
Proof.
  intros r F. unfold group_tokens. destruct (group_by r) as [|n names] eqn:E; [reflexivity|].
  unfold parse_group_by. change (keyword "GROUP" (Name "GROUP" false)) with true.
  change (keyword "BY" (Name "BY" false)) with true. cbn [andb].
  rewrite <- (app_nil_r (separated _ _)). apply parse_names_columns; [discriminate|exact F|exact I].
Qed.

Definition query_of (x : string) (l : list (string * kind)) (r : request) : query :=
  Query (map item_of (items_of l r)) x (match comparisons_of r with [] => [] | cs => [cs] end)
    (group_by r).

Lemma parsed_query : forall x l r, simple reserved x -> l <> [] ->
  (forall c a, In (c, a) (items_of l r) -> simple reserved c) ->
  Forall (simple reserved) (group_by r) ->
  (forall c v, In (c, v) (tags r) -> simple reserved c) ->
  (start_time r <> None \/ end_time r <> None -> simple reserved "timestamp") ->
  parse_query reserved (Name "SELECT" false :: separated [Comma] (map item_tokens (items_of l r))
        ++ Name "FROM" false :: Name x false :: where_tokens r ++ group_tokens r)
  = Ok (query_of x l r).
Proof.
  intros x l r X L I G T S. unfold parse_query.
  change (keyword "SELECT" (Name "SELECT" false)) with true. cbn iota.
  rewrite parse_all_items.
  - cbn [bind]. change (keyword "FROM" (Name "FROM" false)) with true. cbn iota.
    rewrite (identifier_simple x X). cbn [bind].
    rewrite (parse_where_written r (conditions_read r T S)). cbn [bind].
    rewrite (parse_group_written r G). reflexivity.
  - unfold items_of. destruct (columns r); [|discriminate]. now destruct l.
  - apply Forall_forall. intros (c, a) H. now apply (I c a).
  - exact Logic.I.
  - exact Logic.I.
Qed.
End Parser.

(** Tables and columns. *)
Lemma find_holds : forall db x t, holds db x t ->
  find (fun p => String.eqb (fst p) x) db = Some (x, t).
Proof.
  intros db x t (N & H). induction db as [|(y, u) db IH]; [contradiction|].
  cbn [map fst] in N. inversion N as [|? ? N1 N2]; subst. cbn [find fst].
  destruct (String.eqb_spec y x) as [->|Ne].
  - destruct H as [E|H]; [congruence|]. destruct N1. apply in_map_iff. now exists (x, t).
  - destruct H as [E|H]; [congruence|]. now apply IH.
Qed.
Lemma kind_of_In : forall l n k, NoDup (map fst l) -> In (n, k) l -> column_kind l n = Some k.
Proof.
  intros l n k N H. unfold column_kind. induction l as [|(m, j) l IH]; [contradiction|].
  cbn [map fst] in N. inversion N as [|? ? N1 N2]; subst. cbn [find fst].
  destruct (String.eqb_spec m n) as [->|Ne].
  - destruct H as [E|H]; [cbn; congruence|]. destruct N1. apply in_map_iff. now exists (n, k).
  - destruct H as [E|H]; [congruence|]. now apply IH.
Qed.
Lemma known_In : forall l n, In n (map fst l) -> known l n = true.
Proof.
  intros l n H. unfold known, column_kind. induction l as [|(m, j) l IH]; [contradiction|].
  cbn [find fst]. destruct (String.eqb_spec m n) as [->|Ne]; [reflexivity|].
  destruct H as [E|H]; [contradiction|now apply IH].
Qed.
Lemma position_of : forall l n, In n (map fst l) ->
  exists i, position n l = Some i /\ nth_error (map fst l) i = Some n.
Proof.
  induction l as [|(m, k) l IH]; intros n H; [contradiction|]. cbn [position map fst].
  destruct (String.eqb_spec m n) as [->|Ne]; [now exists 0|].
  destruct H as [E|H]; [contradiction|]. destruct (IH n H) as (i & -> & E). now exists (S i).
Qed.
Lemma nth_error_unique : forall (A : Type) (l : list A) i j a, NoDup l ->
  nth_error l i = Some a -> nth_error l j = Some a -> i = j.
Proof.
  intros A l i j a N Hi Hj. rewrite NoDup_nth_error in N. apply N; [|congruence].
  apply nth_error_Some. congruence.
Qed.
Lemma forall2_nth_error : forall (A B : Type) (R : A -> B -> Prop) l m i a,
  Forall2 R l m -> nth_error l i = Some a -> exists b, nth_error m i = Some b /\ R a b.
Proof.
  intros A B R l m i a F. revert i. induction F as [|x y l m H F IH]; intros [|i] E; try discriminate.
  - injection E as ->. now exists y.
  - now apply IH.
Qed.

(** The cell of a row. *)
Lemma cell_value : forall l n k row, NoDup (map fst l) -> In (n, k) l ->
  Forall2 typed (map snd l) row ->
  value_in l n row (cell l n row) /\ typed k (cell l n row)
  /\ forall v, value_in l n row v -> cell l n row = v.
Proof.
  intros l n k row N H F. destruct (In_nth_error l (n, k) H) as (i & E).
  assert (En : nth_error (map fst l) i = Some n) by exact (map_nth_error fst i l E).
  assert (Ek : nth_error (map snd l) i = Some k) by exact (map_nth_error snd i l E).
  destruct (forall2_nth_error _ _ _ _ _ _ _ F Ek) as (v & Ev & T).
  destruct (position_of l n) as (j & P & Ej).
  { apply in_map_iff. now exists (n, k). }
  assert (j = i) as -> by exact (nth_error_unique _ _ _ _ _ N Ej En).
  assert (C : cell l n row = v).
  { unfold cell. rewrite P. now apply nth_error_nth. }
  rewrite C. split; [now exists i|]. split; [exact T|].
  intros v' (j & Ej' & Ev'). assert (j = i) as -> by exact (nth_error_unique _ _ _ _ _ N Ej' En).
  congruence.
Qed.

(** Comparisons. *)
Lemma compare_same : forall s, String.compare s s = Eq.
Proof.
  induction s as [|c s IH]; [reflexivity|]. cbn [String.compare]. unfold Ascii.compare.
  now rewrite N.compare_refl.
Qed.
Lemma order_equal : forall a b, order String.compare true a b = true <-> a = b.
Proof.
  intros a b. unfold order. destruct (String.compare a b) eqn:E; cbn [negb].
  - apply String.compare_eq_iff in E. now split.
  - split; [discriminate|]. intros <-. rewrite compare_same in E. discriminate.
  - split; [discriminate|]. intros <-. rewrite compare_same in E. discriminate.
Qed.
Lemma order_less_equal : forall a b, order Z.compare false a b = true <-> (a <= b)%Z.
Proof.
  intros a b. unfold order. destruct (Z.compare_spec a b) as [E|E|E]; cbn [negb]; split; try lia; discriminate.
Qed.

Section Execute.
Variable timestamp_of : string -> option Z.
Variable aggregated : list (string * kind) -> list (option string * string) -> list string ->
  list (list value) -> outcome (list (list value)).
Variable l : list (string * kind).
Hypothesis N : NoDup (map fst l).

Definition means (c : comparison) (P : list value -> Prop) : Prop :=
  exists p, compile timestamp_of l c = Ok p
    /\ forall row, Forall2 typed (map snd l) row -> (p row = true <-> P row).

Lemma means_tag : forall n v, In (n, Tag_column) l ->
  means (Compare (Column n) true (Literal v)) (fun row => value_in l n row (Tag v)).
Proof.
  intros n v H. unfold means, compile, operand_kind. cbn [left_side right_side].
  rewrite (kind_of_In l n Tag_column N H). cbn [bind equal]. eexists. split; [reflexivity|].
  intros row F. cbv beta. rewrite order_equal. cbn [tag_of].
  destruct (cell_value l n Tag_column row N H F) as (V & T & U).
  destruct (cell l n row) as [z|s|z]; try contradiction. cbn [as_tag]. split.
  - now intros <-.
  - intros X. specialize (U (Tag v) X). congruence.
Qed.
Lemma means_start : forall s a, In ("timestamp", Time_column) l -> timestamp_of s = Some a ->
  means (Compare (Literal s) false (Column "timestamp"))
    (fun row => exists b t, timestamp_of s = Some b /\ value_in l "timestamp" row (Time t) /\ (b <= t)%Z).
Proof.
  intros s a H E. unfold means, compile, operand_kind. cbn [left_side right_side].
  rewrite (kind_of_In l "timestamp" Time_column N H). cbn [bind equal time_of]. rewrite E. cbn [bind].
  eexists. split; [reflexivity|]. intros row F. cbv beta. rewrite order_less_equal.
  destruct (cell_value l "timestamp" Time_column row N H F) as (V & T & U).
  destruct (cell l "timestamp" row) as [z|v|z]; try contradiction. cbn [as_time]. split.
  - intros L. now exists a, z.
  - intros (b & t & Eb & X & L). specialize (U _ X). assert (z = t) by congruence.
    assert (a = b) by congruence. lia.
Qed.
Lemma means_end : forall s a, In ("timestamp", Time_column) l -> timestamp_of s = Some a ->
  means (Compare (Column "timestamp") false (Literal s))
    (fun row => exists b t, timestamp_of s = Some b /\ value_in l "timestamp" row (Time t) /\ (t <= b)%Z).
Proof.
  intros s a H E. unfold means, compile, operand_kind. cbn [left_side right_side].
  rewrite (kind_of_In l "timestamp" Time_column N H). cbn [bind equal time_of]. rewrite E. cbn [bind].
  eexists. split; [reflexivity|]. intros row F. cbv beta. rewrite order_less_equal.
  destruct (cell_value l "timestamp" Time_column row N H F) as (V & T & U).
  destruct (cell l "timestamp" row) as [z|v|z]; try contradiction. cbn [as_time]. split.
  - intros L. now exists a, z.
  - intros (b & t & Eb & X & L). specialize (U _ X). assert (z = t) by congruence.
    assert (a = b) by congruence. lia.
Qed.

Lemma means_all : forall cs Ps, Forall2 means cs Ps ->
  exists p, all_of timestamp_of l cs = Ok p
    /\ forall row, Forall2 typed (map snd l) row -> (p row = true <-> Forall (fun P => P row) Ps).
Proof.
  intros cs Ps F. induction F as [|c P cs Ps (p & E & H) F (q & Eq & Hq)].
  - exists (fun _ => true). split; [reflexivity|]. intros row _. split; [constructor|reflexivity].
  - exists (fun row => p row && q row). cbn [all_of]. rewrite E. cbn [bind]. rewrite Eq.
    split; [reflexivity|]. intros row T. rewrite andb_true_iff, (H row T), (Hq row T). split.
    + intros (A & B). now constructor.
    + intros X. split; [exact (Forall_inv X)|exact (Forall_inv_tail X)].
Qed.

Lemma predicate_wanted : forall r, fits timestamp_of l r ->
  exists p, predicate timestamp_of l (match comparisons_of r with [] => [] | cs => [cs] end) = Ok p
    /\ forall row, Forall2 typed (map snd l) row ->
         (p row = true <-> wanted timestamp_of l r row).
Proof.
  intros r (_ & _ & T & S).
  pose (Ps := map (fun t row => value_in l (fst t) row (Tag (snd t))) (tags r)
    ++ match start_time r with
       | Some s => [fun row => exists b t, timestamp_of s = Some b
                      /\ value_in l "timestamp" row (Time t) /\ (b <= t)%Z]
       | None => []
       end
    ++ match end_time r with
       | Some s => [fun row => exists b t, timestamp_of s = Some b
                      /\ value_in l "timestamp" row (Time t) /\ (t <= b)%Z]
       | None => []
       end).
  assert (M : Forall2 means (comparisons_of r) Ps).
  { unfold comparisons_of, Ps. apply Forall2_app; [|apply Forall2_app].
    - apply Forall2_map_both. intros (n, v) H. apply means_tag. now apply (T n v).
    - destruct (start_time r) as [s|] eqn:E; [|constructor]. constructor; [|constructor].
      destruct (S s (or_introl eq_refl)) as (I & X). destruct (timestamp_of s) as [a|] eqn:Ea; [|congruence].
      rewrite <- Ea. now apply (means_start s a).
    - destruct (end_time r) as [s|] eqn:E; [|constructor]. constructor; [|constructor].
      destruct (S s (or_intror eq_refl)) as (I & X). destruct (timestamp_of s) as [a|] eqn:Ea; [|congruence].
      rewrite <- Ea. now apply (means_end s a). }
  assert (W : forall row, Forall (fun P => P row) Ps <-> wanted timestamp_of l r row).
  { intros row. unfold Ps, wanted. rewrite !Forall_app, Forall_map, Forall_forall.
    assert (A : (forall t, In t (tags r) -> value_in l (fst t) row (Tag (snd t)))
                <-> (forall name v, In (name, v) (tags r) -> value_in l name row (Tag v))).
    { split; intros H; [intros n v; apply (H (n, v))|intros (n, v); apply H]. }
    assert (O : forall (o : option string) (Q : string -> list value -> Prop),
      Forall (fun P : list value -> Prop => P row) (match o with Some s => [Q s] | None => [] end)
      <-> (forall s, o = Some s -> Q s row)).
    { intros [s|] Q; split; intros H.
      - intros s' E. injection E as <-. exact (Forall_inv H).
      - constructor; [now apply H|constructor].
      - discriminate.
      - constructor. }
    rewrite A.
    rewrite (O (start_time r) (fun s row => exists b t, timestamp_of s = Some b
               /\ value_in l "timestamp" row (Time t) /\ (b <= t)%Z)).
    rewrite (O (end_time r) (fun s row => exists b t, timestamp_of s = Some b
               /\ value_in l "timestamp" row (Time t) /\ (t <= b)%Z)). reflexivity. }
  destruct (means_all _ _ M) as (p & E & H). destruct (comparisons_of r) as [|c cs].
  - exists (fun _ => true). split; [reflexivity|]. intros row F. rewrite <- W.
    rewrite <- (H row F). cbn [all_of] in E. assert (X : p = fun _ => true) by congruence. now rewrite X.
  - exists (fun row => p row || false). cbn [predicate any_of]. rewrite E. split; [reflexivity|].
    intros row F. rewrite orb_false_r, (H row F). apply W.
Qed.

Lemma filter_chosen : forall (p : list value -> bool) (P : list value -> Prop) rows,
  Forall (fun row => Forall2 typed (map snd l) row) rows ->
  (forall row, Forall2 typed (map snd l) row -> (p row = true <-> P row)) ->
  chosen P rows (filter p rows).
Proof.
  intros p P rows F H. induction F as [|row rows T F IH]; [constructor|]. cbn [filter].
  destruct (p row) eqn:E.
  - constructor; [now apply H|exact IH].
  - constructor; [|exact IH]. intros X. apply (H row T) in X. congruence.
Qed.
End Execute.

(** What is returned. *)
Lemma items_In : forall timestamp_of l r, fits timestamp_of l r -> forall c a, In (c, a) (items_of l r) ->
  In c (map fst l).
Proof.
  intros ts l r (C & _) c a H. unfold items_of in H. destruct (columns r) as [|d cs].
  - apply in_map_iff in H. destruct H as (d & E & H). apply in_map_iff. exists d. split; [congruence|exact H].
  - now apply (C c a).
Qed.
Lemma items_asked : forall l r, map item_of (items_of l r) = asked_aggregates l r.
Proof.
  intros l r. unfold items_of, asked_aggregates. destruct (columns r); [|reflexivity].
  now rewrite map_map.
Qed.

Lemma tags_plain : forall reserved timestamp_of l r, fits timestamp_of l r ->
  Forall (simple reserved) (map fst l) -> forall c v, In (c, v) (tags r) -> plain c.
Proof.
  intros reserved timestamp_of l r (_ & _ & F3 & _) W c v Hc. rewrite Forall_forall in W.
  apply (W c). apply in_map_iff. exists (c, Tag_column). split; [reflexivity|]. now apply (F3 c v).
Qed.
Lemma written_stands : forall reserved timestamp_of l r, fits timestamp_of l r ->
  written reserved l r -> stands_for r r.
Proof.
  intros reserved timestamp_of l r Fit (W1 & W2 & W3). split; [reflexivity|]. split; [reflexivity|].
  apply lexes_conditions; [|exact W3]. intros c v Hc.
  split; [exact (tags_plain _ _ _ _ Fit W1 c v Hc)|exact (W2 c v Hc)].
Qed.
Lemma doubled_stands : forall reserved timestamp_of l r, fits timestamp_of l r ->
  written_doubled reserved l r -> stands_for (with_quotes r) r.
Proof.
  intros reserved timestamp_of l r Fit (W1 & W3). split; [reflexivity|]. split; [reflexivity|].
  apply lexes_doubled_conditions; [|exact W3]. exact (tags_plain _ _ _ _ Fit W1).
Qed.

Lemma read_executes_for : forall reserved timestamp_of aggregated x w r db t,
  holds db x t -> proper t -> simple reserved x -> fits timestamp_of (schema t) r ->
  Forall (simple reserved) (map fst (schema t)) -> stands_for w r ->
  exists kept, chosen (wanted timestamp_of (schema t) r) (rows t) kept
    /\ read reserved timestamp_of aggregated x w db
       = match forallb is_plain (asked_aggregates (schema t) r), group_by r with
         | true, [] => Ok (map (fun row => map (fun i => cell (schema t) (snd i) row)
                                             (asked_aggregates (schema t) r)) kept)
         | _, _ => aggregated (schema t) (asked_aggregates (schema t) r) (group_by r) kept
         end.
Proof.
  intros reserved timestamp_of aggregated x w r db t H (N & Ne & F) X Fit W1 W.
  pose proof (items_In _ _ _ Fit) as I. rewrite Forall_forall in W1.
  destruct (predicate_wanted timestamp_of (schema t) N r Fit) as (p & P & Hp).
  destruct Fit as (F1 & F2 & F3 & F4).
  assert (Tg : forall c v, In (c, v) (tags r) -> simple reserved c).
  { intros c v Hc. apply W1. apply in_map_iff. exists (c, Tag_column). split; [reflexivity|].
    now apply (F3 c v). }
  assert (G : Forall (simple reserved) (group_by r)).
  { apply Forall_forall. intros c Hc. apply W1, F2, Hc. }
  exists (filter p (rows t)). split; [now apply (filter_chosen (schema t))|].
  unfold read. rewrite (find_holds db x t H). rewrite (generated_for x (schema t) w r).
  - cbn [bind]. rewrite (parsed_query reserved x (schema t) r X Ne).
    + cbn [bind]. unfold execute. cbn [query_of from]. rewrite (find_holds db x t H).
      cbn [query_of selected grouped condition]. rewrite items_asked.
      replace (forallb (known (schema t)) (map snd (asked_aggregates (schema t) r) ++ group_by r)) with true.
      * rewrite P. reflexivity.
      * symmetry. apply forallb_forall. intros c Hc. apply known_In. apply in_app_iff in Hc.
        destruct Hc as [Hc|Hc]; [|now apply F2]. rewrite <- items_asked, map_map in Hc.
        apply in_map_iff in Hc. destruct Hc as ((c', a) & <- & Hc). now apply (I c' a).
    + intros c a Hc. apply W1, (I c a Hc).
    + exact G.
    + exact Tg.
    + intros S. apply W1. apply in_map_iff. exists ("timestamp", Time_column). split; [reflexivity|].
      destruct S as [S|S].
      * destruct (start_time r) as [s|] eqn:E; [|congruence]. now apply (F4 s (or_introl eq_refl)).
      * destruct (end_time r) as [s|] eqn:E; [|congruence]. now apply (F4 s (or_intror eq_refl)).
  - apply X.
  - exact Ne.
  - intros c a Hc. apply (W1 c (I c a Hc)).
  - eapply Forall_impl; [|exact G]. now intros n (Pn & _).
  - exact W.
Qed.

Lemma read_rows_for : forall reserved timestamp_of aggregated x w r db t,
  holds db x t -> proper t -> simple reserved x -> fits timestamp_of (schema t) r ->
  Forall (simple reserved) (map fst (schema t)) -> stands_for w r ->
  Forall (fun c => snd c = Plain) (columns r) -> group_by r = [] ->
  exists kept result, read reserved timestamp_of aggregated x w db = Ok result
    /\ chosen (wanted timestamp_of (schema t) r) (rows t) kept
    /\ Forall2 (fun row out => Forall2 (fun c v => value_in (schema t) c row v)
                                 (asked (schema t) r) out) kept result.
Proof.
  intros reserved timestamp_of aggregated x w r db t H Pr X Fit W1 W C G.
  pose proof Pr as (N & Ne & F).
  destruct (read_executes_for reserved timestamp_of aggregated x w r db t H Pr X Fit W1 W) as (kept & K & E).
  assert (Pl : forallb is_plain (asked_aggregates (schema t) r) = true).
  { apply forallb_forall. intros i Hi. rewrite <- items_asked in Hi. apply in_map_iff in Hi.
    destruct Hi as ((c, a) & <- & Hc). unfold items_of in Hc. destruct (columns r) as [|d cs] eqn:Ec.
    - apply in_map_iff in Hc. destruct Hc as (d & Ed & _). now injection Ed as <- <-.
    - rewrite Forall_forall in C. specialize (C _ Hc). cbn [snd] in C. now subst a. }
  rewrite Pl, G in E. eexists kept, _. split; [exact E|]. split; [exact K|].
  assert (Fk : Forall (fun row => Forall2 typed (map snd (schema t)) row) kept).
  { clear - K F. induction K as [|a l k _ K IH|a l k _ K IH].
    - constructor.
    - inversion F; subst. constructor; [assumption|now apply IH].
    - inversion F; subst. now apply IH. }
  assert (A : asked (schema t) r = map snd (asked_aggregates (schema t) r)).
  { unfold asked, asked_aggregates. destruct (columns r); now rewrite map_map. }
  assert (I : forall i, In i (asked_aggregates (schema t) r) -> In (snd i) (map fst (schema t))).
  { intros i Hi. rewrite <- items_asked in Hi. apply in_map_iff in Hi.
    destruct Hi as ((c, a) & <- & Hc). now apply (items_In timestamp_of (schema t) r Fit c a). }
  rewrite A. clear - Fk I N. induction Fk as [|row kept T Fk IH]; [constructor|]. cbn [map].
  constructor; [|exact IH]. apply Forall2_map_both. intros i Hi. specialize (I i Hi).
  apply in_map_iff in I. destruct I as ((n, k) & E & I). cbn [fst] in E. subst n.
  now apply (cell_value (schema t) (snd i) k row).
Qed.

Lemma read_aggregates_for : forall reserved timestamp_of aggregated x w r db t,
  holds db x t -> proper t -> simple reserved x -> fits timestamp_of (schema t) r ->
  Forall (simple reserved) (map fst (schema t)) -> stands_for w r ->
  (exists c a, In (c, a) (columns r) /\ a <> Plain) \/ group_by r <> [] ->
  exists kept, chosen (wanted timestamp_of (schema t) r) (rows t) kept
    /\ read reserved timestamp_of aggregated x w db
       = aggregated (schema t) (asked_aggregates (schema t) r) (group_by r) kept.
Proof.
  intros reserved timestamp_of aggregated x w r db t H Pr X Fit W1 W A.
  destruct (read_executes_for reserved timestamp_of aggregated x w r db t H Pr X Fit W1 W) as (kept & K & ->).
  exists kept. split; [exact K|].
  destruct (forallb is_plain (asked_aggregates (schema t) r)) eqn:P; [|reflexivity].
  destruct A as [(c & a & Hc & Ha)|G]; [|now destruct (group_by r)].
  exfalso. rewrite forallb_forall in P. apply Ha.
  assert (In (item_of (c, a)) (asked_aggregates (schema t) r)) as Hi.
  { unfold asked_aggregates. destruct (columns r) as [|d cs]; [contradiction|].
    exact (in_map item_of _ _ Hc). }
  apply P in Hi. unfold is_plain, item_of in Hi. cbn [fst snd] in Hi. destruct a; try discriminate. reflexivity.
Qed.

Lemma read_executes : forall reserved timestamp_of aggregated x r db t,
  holds db x t -> proper t -> simple reserved x -> fits timestamp_of (schema t) r ->
  written reserved (schema t) r ->
  exists kept, chosen (wanted timestamp_of (schema t) r) (rows t) kept
    /\ read reserved timestamp_of aggregated x r db
       = match forallb is_plain (asked_aggregates (schema t) r), group_by r with
         | true, [] => Ok (map (fun row => map (fun i => cell (schema t) (snd i) row)
                                             (asked_aggregates (schema t) r)) kept)
         | _, _ => aggregated (schema t) (asked_aggregates (schema t) r) (group_by r) kept
         end.
Proof.
  intros reserved timestamp_of aggregated x r db t H Pr X Fit W.
  exact (read_executes_for reserved timestamp_of aggregated x r r db t H Pr X Fit (proj1 W) (written_stands _ _ _ _ Fit W)).
Qed.
Lemma read_rows : forall reserved timestamp_of aggregated x r db t,
  holds db x t -> proper t -> simple reserved x -> fits timestamp_of (schema t) r ->
  written reserved (schema t) r ->
  Forall (fun c => snd c = Plain) (columns r) -> group_by r = [] ->
  exists kept result, read reserved timestamp_of aggregated x r db = Ok result
    /\ chosen (wanted timestamp_of (schema t) r) (rows t) kept
    /\ Forall2 (fun row out => Forall2 (fun c v => value_in (schema t) c row v)
                                 (asked (schema t) r) out) kept result.
Proof.
  intros reserved timestamp_of aggregated x r db t H Pr X Fit W.
  exact (read_rows_for reserved timestamp_of aggregated x r r db t H Pr X Fit (proj1 W) (written_stands _ _ _ _ Fit W)).
Qed.
Lemma read_aggregates : forall reserved timestamp_of aggregated x r db t,
  holds db x t -> proper t -> simple reserved x -> fits timestamp_of (schema t) r ->
  written reserved (schema t) r ->
  (exists c a, In (c, a) (columns r) /\ a <> Plain) \/ group_by r <> [] ->
  exists kept, chosen (wanted timestamp_of (schema t) r) (rows t) kept
    /\ read reserved timestamp_of aggregated x r db
       = aggregated (schema t) (asked_aggregates (schema t) r) (group_by r) kept.
Proof.
  intros reserved timestamp_of aggregated x r db t H Pr X Fit W.
  exact (read_aggregates_for reserved timestamp_of aggregated x r r db t H Pr X Fit (proj1 W) (written_stands _ _ _ _ Fit W)).
Qed.
Lemma read_rows_doubled : forall reserved timestamp_of aggregated x r db t,
  holds db x t -> proper t -> simple reserved x -> fits timestamp_of (schema t) r ->
  written_doubled reserved (schema t) r ->
  Forall (fun c => snd c = Plain) (columns r) -> group_by r = [] ->
  exists kept result, read reserved timestamp_of aggregated x (with_quotes r) db = Ok result
    /\ chosen (wanted timestamp_of (schema t) r) (rows t) kept
    /\ Forall2 (fun row out => Forall2 (fun c v => value_in (schema t) c row v)
                                 (asked (schema t) r) out) kept result.
Proof.
  intros reserved timestamp_of aggregated x r db t H Pr X Fit W.
  exact (read_rows_for reserved timestamp_of aggregated x (with_quotes r) r db t H Pr X Fit (proj1 W) (doubled_stands _ _ _ _ Fit W)).
Qed.
Lemma read_aggregates_doubled : forall reserved timestamp_of aggregated x r db t,
  holds db x t -> proper t -> simple reserved x -> fits timestamp_of (schema t) r ->
  written_doubled reserved (schema t) r ->
  (exists c a, In (c, a) (columns r) /\ a <> Plain) \/ group_by r <> [] ->
  exists kept, chosen (wanted timestamp_of (schema t) r) (rows t) kept
    /\ read reserved timestamp_of aggregated x (with_quotes r) db
       = aggregated (schema t) (asked_aggregates (schema t) r) (group_by r) kept.
Proof.
  intros reserved timestamp_of aggregated x r db t H Pr X Fit W.
  exact (read_aggregates_for reserved timestamp_of aggregated x (with_quotes r) r db t H Pr X Fit (proj1 W) (doubled_stands _ _ _ _ Fit W)).
Qed.
