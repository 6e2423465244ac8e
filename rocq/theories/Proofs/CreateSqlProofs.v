(** Proofs about the text of CREATE TIME SERIES TABLE statements. *)
From Coq Require Import ZArith Bool Ascii String List Lia.
From Verif Require Import Model.Base Model.Float Model.Filters Model.Table Model.Sql Model.Statements
  Spec.TableSpec Spec.StatementSpec Proofs.SqlProofs Proofs.TableProofs Proofs.DefinitionProofs
  Proofs.StoredDefinitionProofs Model.CreateSql Spec.CreateSqlSpec.
Import ListNotations.
Open Scope string_scope.
Open Scope list_scope.

Lemma value_iff : forall w v, has_value w v = true <-> map_string to_upper v = w.
Proof. intros w v. unfold has_value. apply String.eqb_eq. Qed.

Lemma spelled_iff : forall w t, word_is w t = true <-> spelled w t.
Proof.
  intros w t. split.
  - destruct t as [v q| | | | | | | |]; try discriminate. cbn [word_is]. intros H.
    apply value_iff in H. now exists v, q.
  - intros (v & q & -> & H). cbn [word_is]. now apply value_iff.
Qed.
Lemma unquoted_iff : forall w t, keyword_is w t = true <-> unquoted_keyword w t.
Proof.
  intros w t. split.
  - destruct t as [v [|]| | | | | | | |]; try discriminate. cbn [keyword_is]. intros H.
    apply value_iff in H. now exists v.
  - intros (v & -> & H). cbn [keyword_is]. now apply value_iff.
Qed.

Lemma semicolons_iff : forall ts,
  forallb (fun t => match t with Semicolon => true | _ => false end) ts = true
  <-> Forall (eq Semicolon) ts.
Proof.
  intros ts. rewrite forallb_forall, Forall_forall. split; intros H t Ht; specialize (H t Ht).
  - destruct t; try discriminate. reflexivity.
  - now subst t.
Qed.

Section Parser.
Variable parse_f32 : list ascii -> outcome f32.
Variable parse_expr : list token -> outcome (expr * list token).
Variable reserved : string -> bool.

Definition separator (ts : list token) : Prop :=
  match ts with Comma :: _ | Close :: _ => True | _ => False end.

Lemma different : forall w v u, map_string to_upper v = w -> w <> u -> has_value u v = false.
Proof.
  intros w v u H N. unfold has_value. apply String.eqb_neq. congruence.
Qed.

Lemma parse_written : forall ts column rest, column_written parse_f32 parse_expr ts column ->
  separator rest ->
  parse_column parse_f32 parse_expr (ts ++ rest) = Ok (column, rest).
Proof.
  intros ts column rest H Hr.
  assert (F : forall v, map_string to_upper v = "FIELD" ->
            has_value "TIMESTAMP" v = false /\ has_value "FIELD" v = true).
  { intros v E. split; [apply (different "FIELD"); [exact E|discriminate]|now apply value_iff]. }
  destruct H as [n q t (v & q' & -> & E)|n q t (v & q' & -> & E)|n q t (v & q' & -> & E)
    |n q t digits bound (v & q' & -> & E) B|n q t digits bound (v & q' & -> & E) B
    |n q t a tokens e (v & q' & -> & E) (w & q2 & -> & A) X].
  - cbn [app]. unfold parse_column. now rewrite (proj2 (value_iff _ _) E).
  - cbn [app]. unfold parse_column.
    rewrite (different _ _ "TIMESTAMP" E), (different _ _ "FIELD" E) by discriminate.
    now rewrite (proj2 (value_iff _ _) E).
  - cbn [app]. unfold parse_column. destruct (F v E) as (-> & ->).
    destruct rest as [|[] rest]; try contradiction; reflexivity.
  - cbn [app]. unfold parse_column. destruct (F v E) as (-> & ->). rewrite B. reflexivity.
  - cbn [app]. unfold parse_column. destruct (F v E) as (-> & ->). rewrite B. reflexivity.
  - rewrite <- !app_assoc. cbn [app]. unfold parse_column. destruct (F v E) as (-> & ->).
    rewrite (proj2 (value_iff _ _) A), X. reflexivity.
Qed.

Hypothesis takes : takes_first parse_expr.

Lemma parsed_column : forall ts column rest,
  parse_column parse_f32 parse_expr ts = Ok (column, rest) ->
  exists first, ts = first ++ rest /\ column_written parse_f32 parse_expr first column.
Proof.
  intros ts column rest H. unfold parse_column in H.
  destruct ts as [|[n q| | | | | | | |] [|[v q'| | | | | | | |] ts]]; try discriminate.
  destruct (has_value "TIMESTAMP" v) eqn:E1.
  { injection H as <- <-. apply value_iff in E1. exists [Word n q; Word v q'].
    split; [reflexivity|]. constructor. now exists v, q'. }
  destruct (has_value "FIELD" v) eqn:E2.
  - apply value_iff in E2. assert (S2 : spelled "FIELD" (Word v q')) by now exists v, q'.
    assert (Plain : forall rest', Ok ((map_string to_lower n, Field_column f32_zero false), rest')
                      = Ok (column, rest) -> ts = rest' ->
              exists first, Word n q :: Word v q' :: ts = first ++ rest
                /\ column_written parse_f32 parse_expr first column).
    { intros rest' X ->. injection X as <- <-. exists [Word n q; Word v q'].
      split; [reflexivity|]. now constructor. }
    destruct ts as [|[w q2|d| | | | | | |c] ts]; try (now apply (Plain _ H)).
    + destruct (has_value "AS" w) eqn:E3; [|discriminate]. apply value_iff in E3.
      destruct ts as [|[] ts]; try discriminate.
      destruct (parse_expr ts) as [(e & more)| |] eqn:X; try discriminate. cbn [bind] in H.
      destruct more as [|[] more]; try discriminate. injection H as <- <-.
      destruct (takes _ _ _ X) as (first & -> & Hx).
      exists ([Word n q; Word v q'; Word w q2; Open] ++ first ++ [Close]).
      split; [now rewrite <- !app_assoc|]. constructor; [exact S2|now exists w, q2|exact Hx].
    + destruct ts as [|[|d| | | | | | |] ts]; try discriminate.
      destruct (parse_f32 d) as [bound| |] eqn:B; try discriminate. cbn [bind] in H.
      destruct ts as [|[] ts]; try discriminate.
      * injection H as <- <-. exists [Word n q; Word v q'; Open; Number d; Close].
        split; [reflexivity|]. now constructor.
      * destruct ts as [|[] ts]; try discriminate. injection H as <- <-.
        exists [Word n q; Word v q'; Open; Number d; Percent; Close].
        split; [reflexivity|]. now constructor.
  - destruct (has_value "TAG" v) eqn:E3; [|discriminate]. injection H as <- <-.
    apply value_iff in E3. exists [Word n q; Word v q'].
    split; [reflexivity|]. constructor. now exists v, q'.
Qed.

Lemma columns_nonempty : forall ts columns, columns_written parse_f32 parse_expr ts columns ->
  0 < length ts.
Proof.
  intros ts columns H. destruct H as [ts column H|ts column more columns H _].
  - destruct H; cbn; lia.
  - rewrite app_length. cbn. lia.
Qed.

Lemma parse_all_written : forall ts columns, columns_written parse_f32 parse_expr ts columns ->
  forall fuel rest, length ts <= fuel ->
  parse_columns parse_f32 parse_expr fuel (ts ++ Close :: rest) = Ok (columns, rest).
Proof.
  intros ts columns H. induction H as [ts column H|ts column more columns H Hm IH];
    intros fuel rest L.
  - destruct fuel as [|fuel].
    { assert (0 < length ts) by (destruct H; cbn; lia). lia. }
    cbn [parse_columns]. rewrite (parse_written _ _ (Close :: rest) H I). reflexivity.
  - rewrite app_length in L. cbn [length] in L. destruct fuel as [|fuel]; [lia|].
    cbn [parse_columns]. rewrite <- app_assoc. cbn [app].
    rewrite (parse_written _ _ (Comma :: more ++ Close :: rest) H I). cbn [bind].
    rewrite IH by lia. reflexivity.
Qed.

Lemma parsed_all : forall fuel ts columns rest,
  parse_columns parse_f32 parse_expr fuel ts = Ok (columns, rest) ->
  exists first, ts = first ++ Close :: rest /\ columns_written parse_f32 parse_expr first columns.
Proof.
  induction fuel as [|fuel IH]; intros ts columns rest H; [discriminate|].
  cbn [parse_columns] in H.
  destruct (parse_column parse_f32 parse_expr ts) as [(column & more)| |] eqn:E; try discriminate.
  cbn [bind] in H. destruct (parsed_column _ _ _ E) as (first & -> & Hc).
  destruct more as [|[] more]; try discriminate.
  - injection H as <- <-. exists first. split; [reflexivity|]. now constructor.
  - destruct (parse_columns parse_f32 parse_expr fuel more) as [(columns' & rest')| |] eqn:E2;
      try discriminate.
    cbn [bind] in H. injection H as <- <-. destruct (IH _ _ _ E2) as (firsts & -> & Hcs).
    exists (first ++ Comma :: firsts). split; [now rewrite <- app_assoc|]. now constructor.
Qed.

Lemma create_iff : forall ts name columns,
  parse_create parse_f32 parse_expr ts = Ok (name, columns)
  <-> create_written parse_f32 parse_expr ts name columns.
Proof.
  intros ts name columns. split.
  - intros H. unfold parse_create in H.
    destruct ts as [|c [|t [|s [|b [|[n q| | | | | | | |] [|[] rest]]]]]]; try discriminate.
    destruct (keyword_is "CREATE" c) eqn:E1; [|discriminate].
    destruct (word_is "TIME" t) eqn:E2; [|discriminate].
    destruct (word_is "SERIES" s) eqn:E3; [|discriminate].
    destruct (keyword_is "TABLE" b) eqn:E4; [|discriminate]. cbn [andb] in H.
    destruct (parse_columns parse_f32 parse_expr (length rest) rest) as [(cs & stop)| |] eqn:E;
      try discriminate.
    cbn [bind] in H.
    destruct (forallb _ stop) eqn:E5 in H; [|discriminate]. injection H as <- <-.
    destruct (parsed_all _ _ _ _ E) as (first & -> & Hcs).
    exists c, t, s, b, q, first, stop. split; [reflexivity|].
    split; [now apply unquoted_iff|]. split; [now apply spelled_iff|].
    split; [now apply spelled_iff|]. split; [now apply unquoted_iff|]. split; [exact Hcs|].
    now apply semicolons_iff.
  - intros (c & t & s & b & q & first & stop & -> & E1 & E2 & E3 & E4 & Hcs & E5).
    cbn [app]. unfold parse_create.
    rewrite (proj2 (unquoted_iff _ _) E1), (proj2 (spelled_iff _ _) E2),
      (proj2 (spelled_iff _ _) E3), (proj2 (unquoted_iff _ _) E4). cbn [andb].
    rewrite (parse_all_written _ _ Hcs) by (rewrite app_length; cbn [length]; lia).
    cbn [bind]. now rewrite (proj2 (semicolons_iff _) E5).
Qed.
End Parser.

(** Reading text that is written one after another. *)
Definition prepend (ts : list token) (p : list token * reading) : list token * reading :=
  (ts ++ fst p, snd p).
Lemma read_app : forall a b r,
  read_chars (a ++ b) r = prepend (fst (read_chars a r)) (read_chars b (snd (read_chars a r))).
Proof.
  induction a as [|c a IH]; intros b r.
  - cbn [append read_chars fst snd]. now destruct (read_chars b r).
  - cbn [append read_chars]. destruct (read_char r c) as (ts, r'). rewrite (IH b r').
    destruct (read_chars a r') as (ts', r''). unfold prepend. cbn [fst snd].
    now rewrite app_assoc.
Qed.

(** A character that ends a word and a number. *)
Definition ends (c : ascii) : Prop :=
  identifier_part c = false /\ digit c = false /\ Ascii.eqb c "." = false.

Lemma ends_reading : forall r ts c, at_end r = Ok ts -> ends c ->
  read_char r c = prepend ts (begin c).
Proof.
  intros [|w|w|q w] ts c E (P & D & O); cbn [at_end] in E; try discriminate; cbn [read_char].
  - assert (ts = []) as -> by congruence. now destruct (begin c).
  - assert (ts = [Word (text w) false]) as -> by congruence. rewrite P. unfold after.
    now destruct (begin c).
  - assert (ts = [Number (rev w)]) as -> by congruence. rewrite D, O. unfold after. cbn [orb].
    now destruct (begin c).
Qed.

Lemma tokens_app : forall a ta c b tb, tokens_of a = Ok ta -> ends c ->
  tokens_of (String c b) = Ok tb -> tokens_of (a ++ String c b) = Ok (ta ++ tb).
Proof.
  intros a ta c b tb A Hc B. unfold tokens_of in *. rewrite read_app.
  destruct (read_chars a Start) as (ts1, r). cbn [fst snd].
  destruct (at_end r) as [ts2| |] eqn:E; try discriminate. cbn [bind] in A.
  assert (ta = ts1 ++ ts2) as -> by congruence. clear A.
  cbn [read_chars] in B |- *. rewrite (ends_reading r ts2 c E Hc).
  change (read_char Start c) with (begin c) in B.
  destruct (begin c) as (ts, r'). unfold prepend. cbn [fst snd].
  destruct (read_chars b r') as (rest, r''). cbn [fst snd] in *.
  destruct (at_end r'') as [last| |]; try discriminate. cbn [bind] in *.
  assert (tb = (ts ++ rest) ++ last) as -> by congruence. now rewrite !app_assoc.
Qed.

(** Text that ends with a token. *)
Definition closed (s : string) (ts : list token) : Prop := read_chars s Start = (ts, Start).
Lemma closed_tokens : forall a ta b tb, closed a ta -> tokens_of b = Ok tb ->
  tokens_of (a ++ b) = Ok (ta ++ tb).
Proof.
  intros a ta b tb A B. unfold tokens_of in *. rewrite read_app, A. cbn [fst snd].
  destruct (read_chars b Start) as (ts, r). unfold prepend. cbn [fst snd].
  destruct (at_end r) as [last| |]; try discriminate. cbn [bind] in *.
  assert (tb = ts ++ last) as -> by congruence. now rewrite app_assoc.
Qed.

Lemma read_word_part : forall s w,
  Forall (fun c => identifier_part c = true) (list_ascii_of_string s) ->
  read_chars s (In_word w) = ([], In_word (rev (list_ascii_of_string s) ++ w)).
Proof.
  induction s as [|c s IH]; intros w F; [reflexivity|]. cbn [list_ascii_of_string] in *.
  inversion F as [|? ? F1 F2]; subst. cbn [read_chars read_char]. rewrite F1, (IH (c :: w) F2).
  cbn [rev app]. now rewrite <- app_assoc.
Qed.
Lemma read_number_part : forall s w,
  Forall (fun c => digit c = true \/ c = "."%char) (list_ascii_of_string s) ->
  read_chars s (In_number w) = ([], In_number (rev (list_ascii_of_string s) ++ w)).
Proof.
  induction s as [|c s IH]; intros w F; [reflexivity|]. cbn [list_ascii_of_string] in *.
  inversion F as [|? ? F1 F2]; subst. cbn [read_chars read_char].
  assert (E : digit c || Ascii.eqb c "." = true).
  { destruct F1 as [->| ->]; [reflexivity|apply orb_true_r]. }
  rewrite E, (IH (c :: w) F2). cbn [rev app]. now rewrite <- app_assoc.
Qed.
Lemma read_quoted_part : forall s w, ~ has_char """" s ->
  read_chars s (In_quotes """" w) = ([], In_quotes """" (rev (list_ascii_of_string s) ++ w)).
Proof.
  induction s as [|c s IH]; intros w F; [reflexivity|]. cbn [read_chars read_char].
  destruct (Ascii.eqb_spec c """") as [E|N].
  - destruct F. now left.
  - rewrite (IH (c :: w)) by (intros X; apply F; now right). cbn [list_ascii_of_string rev app].
    now rewrite <- app_assoc.
Qed.

Lemma text_rev : forall s, text (rev (list_ascii_of_string s)) = s.
Proof. intros s. unfold text. now rewrite rev_involutive, string_of_list_ascii_of_string. Qed.

Lemma plain_tokens : forall n, plain n -> tokens_of n = Ok [Word n false].
Proof.
  intros n (c & s & -> & Hc & Hs). unfold tokens_of. cbn [read_chars read_char]. unfold begin.
  rewrite (start_not_space c Hc), Hc, (read_word_part s [c] Hs). cbn [at_end bind app].
  do 3 f_equal. change (rev (list_ascii_of_string s) ++ [c]) with (rev (list_ascii_of_string (String c s))).
  apply text_rev.
Qed.
Lemma digit_not : forall c, digit c = true -> whitespace c = false /\ identifier_start c = false.
Proof. intros [[|] [|] [|] [|] [|] [|] [|] [|]] H; vm_compute in H; try discriminate; split; reflexivity. Qed.
Lemma numeral_tokens : forall s, numeral s -> tokens_of s = Ok [Number (list_ascii_of_string s)].
Proof.
  intros n (c & s & -> & Hc & Hs). unfold tokens_of. cbn [read_chars read_char]. unfold begin.
  destruct (digit_not c Hc) as (-> & ->). rewrite Hc, (read_number_part s [c] Hs).
  cbn [at_end bind app]. do 3 f_equal.
  rewrite rev_app_distr, rev_involutive. reflexivity.
Qed.
Lemma quoted_closed : forall n, ~ has_char """" n ->
  closed ("""" ++ n ++ """") [Word n true].
Proof.
  intros n H. unfold closed. cbn [append read_chars read_char].
  change (begin """") with (@nil token, In_quotes """" []). cbn iota.
  rewrite read_app, (read_quoted_part n [] H). cbn [fst snd]. rewrite app_nil_r.
  unfold prepend. cbn [app]. cbn [read_chars read_char]. rewrite Ascii.eqb_refl.
  change (Ascii.eqb """" "'") with false. cbn iota. cbn [app fst snd]. now rewrite text_rev.
Qed.
Lemma closed_alone : forall a ta, closed a ta -> tokens_of a = Ok ta.
Proof.
  intros a ta A. unfold tokens_of. rewrite A. cbn [at_end bind]. now rewrite app_nil_r.
Qed.
Lemma name_tokens : forall n, can_be_written n -> tokens_of (name_text n) = Ok [Word (fst n) (snd n)].
Proof.
  intros (n, [|]) H; unfold can_be_written, name_text in *; cbn [fst snd] in *.
  - now apply closed_alone, quoted_closed.
  - now apply plain_tokens.
Qed.

Lemma space_ends : ends " ". Proof. repeat split. Qed.
Lemma comma_ends : ends ",". Proof. repeat split. Qed.
Lemma open_ends : ends "(". Proof. repeat split. Qed.
Lemma close_ends : ends ")". Proof. repeat split. Qed.
Lemma percent_ends : ends "%". Proof. repeat split. Qed.

Lemma string_assoc : forall a b c : string, ((a ++ b) ++ c)%string = (a ++ b ++ c)%string.
Proof. induction a as [|x a IH]; intros b c; [reflexivity|]. cbn. now rewrite IH. Qed.

Section Text.
Variable parse_f32 : list ascii -> outcome f32.
Variable parse_expr : list token -> outcome (expr * list token).

Lemma kind_tokens : forall a k n, asks_for parse_f32 parse_expr a k ->
  exists ts, tokens_of (asked_text a) = Ok ts
    /\ column_written parse_f32 parse_expr (Word (fst n) (snd n) :: ts) (map_string to_lower (fst n), k).
Proof.
  intros a k (n, q) H. cbn [fst snd]. destruct a as [| | |d r|t]; cbn [asks_for asked_text] in *.
  - subst k. eexists. split; [reflexivity|]. constructor. now exists "TIMESTAMP", false.
  - subst k. eexists. split; [reflexivity|]. constructor. now exists "TAG", false.
  - subst k. eexists. split; [reflexivity|]. constructor. now exists "FIELD", false.
  - destruct H as (bound & -> & Hn & B). apply numeral_tokens in Hn.
    assert (Hf : closed "FIELD(" [Word "FIELD" false; Open]) by reflexivity.
    destruct r.
    + exists ([Word "FIELD" false; Open] ++ [Number (list_ascii_of_string d)] ++ [Percent; Close]).
      split.
      * apply closed_tokens; [exact Hf|]. apply tokens_app; [exact Hn|apply percent_ends|reflexivity].
      * cbn [app]. constructor; [now exists "FIELD", false|exact B].
    + exists ([Word "FIELD" false; Open] ++ [Number (list_ascii_of_string d)] ++ [Close]).
      split.
      * apply closed_tokens; [exact Hf|]. apply tokens_app; [exact Hn|apply close_ends|reflexivity].
      * cbn [app]. constructor; [now exists "FIELD", false|exact B].
  - destruct H as (ts & e & -> & Ht & X).
    exists ([Word "FIELD" false; Word "AS" false; Open] ++ ts ++ [Close]). split.
    + apply (closed_tokens "FIELD AS ("); [reflexivity|].
      apply tokens_app; [exact Ht|apply close_ends|reflexivity].
    + apply (Generated_written parse_f32 parse_expr n q (Word "FIELD" false) (Word "AS" false) ts e).
      * now exists "FIELD", false.
      * now exists "AS", false.
      * exact X.
Qed.

Lemma column_text : forall n a k, can_be_written n -> asks_for parse_f32 parse_expr a k ->
  exists ts, tokens_of (name_text n ++ " " ++ asked_text a) = Ok ts
    /\ column_written parse_f32 parse_expr ts (map_string to_lower (fst n), k).
Proof.
  intros n a k Hn Ha. destruct (kind_tokens a k n Ha) as (ts & Ht & Hc).
  exists ([Word (fst n) (snd n)] ++ ts). split; [|exact Hc].
  change (" " ++ asked_text a)%string with (String " " (asked_text a)).
  apply tokens_app; [now apply name_tokens|apply space_ends|].
  change (String " " (asked_text a)) with (" " ++ asked_text a)%string.
  now apply (closed_tokens " " []).
Qed.

Lemma columns_text : forall cs ds, Forall2 (column_asked parse_f32 parse_expr) cs ds -> cs <> [] ->
  exists ts,
    tokens_of (join ", " (map (fun c => name_text (fst c) ++ " " ++ asked_text (snd c))%string cs))
    = Ok ts /\ columns_written parse_f32 parse_expr ts ds.
Proof.
  intros cs ds H. induction H as [|(n, a) (m, k) cs ds (Hn & Hm & Ha) H IH]; intros N; [contradiction|].
  cbn [fst snd] in *. subst m.
  destruct (column_text n a k Hn Ha) as (ts & Ht & Hc).
  destruct cs as [|c cs].
  - inversion H; subst. exists ts. split; [exact Ht|]. now constructor.
  - destruct (IH ltac:(discriminate)) as (more & Hmore & Hcs).
    exists (ts ++ Comma :: more). split; [|now constructor].
    rewrite map_cons, join_cons by discriminate. cbn [fst snd].
    match goal with |- tokens_of (_ ++ ", " ++ ?r) = _ =>
      change (", " ++ r)%string with (String "," (" " ++ r)) end.
    apply tokens_app; [exact Ht|apply comma_ends|].
    match goal with |- tokens_of (String "," (" " ++ ?r)) = _ =>
      change (String "," (" " ++ r)) with (", " ++ r)%string end.
    now apply (closed_tokens ", " [Comma]).
Qed.

Lemma create_text_tokens : forall n cs ds, can_be_written n -> Forall2 (column_asked parse_f32 parse_expr) cs ds ->
  cs <> [] ->
  exists ts, tokens_of (create_text n cs) = Ok ts
    /\ create_written parse_f32 parse_expr ts (fst n) ds.
Proof.
  intros n cs ds Hn H N. destruct (columns_text cs ds H N) as (ts & Ht & Hc).
  exists ([Word "CREATE" false; Word "TIME" false; Word "SERIES" false; Word "TABLE" false]
          ++ [Word (fst n) (snd n)] ++ [Open] ++ ts ++ [Close]). split.
  - unfold create_text. apply (closed_tokens "CREATE TIME SERIES TABLE "); [reflexivity|].
    match goal with |- tokens_of (_ ++ "(" ++ ?r) = _ =>
      change ("(" ++ r)%string with (String "(" r) end.
    apply tokens_app; [now apply name_tokens|apply open_ends|].
    match goal with |- tokens_of (String "(" ?r) = _ =>
      change (String "(" r) with ("(" ++ r)%string end.
    apply (closed_tokens "(" [Open]); [reflexivity|].
    apply tokens_app; [exact Ht|apply close_ends|reflexivity].
  - exists (Word "CREATE" false), (Word "TIME" false), (Word "SERIES" false), (Word "TABLE" false),
      (snd n), ts, []. split; [reflexivity|]. split; [now exists "CREATE"|].
    split; [now exists "TIME", false|]. split; [now exists "SERIES", false|].
    split; [now exists "TABLE"|]. split; [exact Hc|constructor].
Qed.
End Text.

(** The claims. *)
Lemma text_creates : forall parse_f32 parse_expr reserved order n cs ds,
  takes_first parse_expr -> can_be_written n -> cs <> [] ->
  Forall2 (column_asked parse_f32 parse_expr) cs ds ->
  create_statement parse_f32 parse_expr reserved order (create_text n cs)
  = (let? name := create_name reserved (fst n) in create_table order name ds).
Proof.
  intros parse_f32 parse_expr reserved order n cs ds T Hn N H.
  destruct (create_text_tokens _ _ n cs ds Hn H N) as (ts & Ht & Hw).
  unfold create_statement. rewrite Ht. cbn [bind].
  now rewrite (proj2 (create_iff _ _ T _ _ _) Hw).
Qed.

Lemma create_name_lower : forall reserved v name, create_name reserved v = Ok name ->
  name = map_string to_lower v.
Proof.
  intros reserved v name H. unfold create_name in H.
  destruct (existsb _ _); [discriminate|]. destruct (reserved _); [discriminate|].
  destruct (forallb _ _); [congruence|discriminate].
Qed.

Lemma statement_creates : forall parse_f32 parse_expr reserved order sql m,
  takes_first parse_expr -> enumerates order ->
  create_statement parse_f32 parse_expr reserved order sql = Ok m ->
  exists tokens value columns, tokens_of sql = Ok tokens
    /\ create_written parse_f32 parse_expr tokens value columns
    /\ table_name m = map_string to_lower value /\ valid_table m /\ created_as columns m.
Proof.
  intros parse_f32 parse_expr reserved order sql m T O H. unfold create_statement in H.
  destruct (tokens_of sql) as [ts| |] eqn:E1; try discriminate. cbn [bind] in H.
  destruct (parse_create parse_f32 parse_expr ts) as [(value & columns)| |] eqn:E2; try discriminate.
  cbn [bind] in H.
  destruct (create_name reserved value) as [name| |] eqn:E3; try discriminate. cbn [bind] in H.
  destruct (created_valid _ _ _ _ O H) as (V & Nm & C).
  exists ts, value, columns. split; [reflexivity|]. split; [now apply (create_iff _ _ T)|].
  split; [|now split]. rewrite Nm. exact (create_name_lower _ _ _ E3).
Qed.
