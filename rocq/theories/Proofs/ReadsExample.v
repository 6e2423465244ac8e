(** Reading time series tables: requests that do not return what was requested. *)
From Coq Require Import ZArith Bool Ascii String List Lia.
From Verif Require Import Model.Base Model.Sql Spec.StatementSpec Proofs.SqlProofs Model.Reads
  Spec.ReadsSpec Proofs.ReadsProofs.
Import ListNotations.
Open Scope string_scope.
Open Scope list_scope.

(** The column of timestamps has another name. *)
Lemma all_of_fails : forall timestamp_of l cs c, In c cs -> compile timestamp_of l c = Err ->
  all_of timestamp_of l cs = Err.
Proof.
  assert (NP : forall timestamp_of l c, compile timestamp_of l c <> Panic).
  { intros ts l c. unfold compile, operand_kind.
    destruct (left_side c) as [n|s], (right_side c) as [m|s']; cbn [bind];
      try (destruct (column_kind l n) as [k|]); cbn [bind]; try discriminate;
      try (destruct (column_kind l m) as [j|]); cbn [bind]; try discriminate;
      try (destruct k); try (destruct j); cbn [time_of bind]; try discriminate;
      repeat match goal with |- context [ts ?x] => destruct (ts x); cbn [bind] end; discriminate. }
  intros ts l cs c H E. induction cs as [|d cs IH]; [contradiction|]. cbn [all_of].
  destruct H as [->|H]; [now rewrite E|].
  destruct (compile ts l d) as [p| |] eqn:D; cbn [bind]; [now rewrite (IH H)|reflexivity|].
  now destruct (NP ts l d).
Qed.

Lemma no_timestamp : forall reserved timestamp_of aggregated x r db t,
  holds db x t -> schema t <> [] -> simple reserved x -> written reserved (schema t) r ->
  simple reserved "timestamp" ->
  (forall c a, In (c, a) (columns r) -> In c (map fst (schema t))) ->
  (forall c, In c (group_by r) -> In c (map fst (schema t))) ->
  (forall c v, In (c, v) (tags r) -> In c (map fst (schema t))) ->
  ~ In "timestamp" (map fst (schema t)) -> start_time r <> None \/ end_time r <> None ->
  read reserved timestamp_of aggregated x r db = Err.
Proof.
  intros reserved timestamp_of aggregated x r db t H Ne X (W1 & W2 & W3) S F1 F2 F3 No B.
  rewrite Forall_forall in W1.
  assert (I : forall c a, In (c, a) (items_of (schema t) r) -> In c (map fst (schema t))).
  { intros c a Hc. unfold items_of in Hc. destruct (columns r) as [|d cs].
    - apply in_map_iff in Hc. destruct Hc as (d & E & Hc). apply in_map_iff. exists d.
      split; [congruence|exact Hc].
    - now apply (F1 c a). }
  assert (Tg : forall c v, In (c, v) (tags r) -> simple reserved c).
  { intros c v Hc. apply W1, (F3 c v Hc). }
  assert (G : Forall (simple reserved) (group_by r)).
  { apply Forall_forall. intros c Hc. apply W1, F2, Hc. }
  unfold read. rewrite (find_holds db x t H). rewrite generated_tokens.
  - cbn [bind]. rewrite (parsed_query reserved x (schema t) r X Ne).
    + cbn [bind]. unfold execute. cbn [query_of from]. rewrite (find_holds db x t H).
      destruct (forallb _ _); [|reflexivity]. cbn [query_of condition].
      assert (K : column_kind (schema t) "timestamp" = None).
      { clear - No. unfold column_kind. induction (schema t) as [|(n, k) l IH]; [reflexivity|].
        cbn [find fst]. destruct (String.eqb_spec n "timestamp") as [E|E].
        - destruct No. now left.
        - apply IH. intros Y. apply No. now right. }
      assert (A : all_of timestamp_of (schema t) (comparisons_of r) = Err).
      { destruct B as [B|B].
        - destruct (start_time r) as [s|] eqn:E; [|congruence].
          apply (all_of_fails _ _ _ (Compare (Literal s) false (Column "timestamp"))).
          + unfold comparisons_of. rewrite E. apply in_app_iff. right. now left.
          + unfold compile. cbn [left_side right_side operand_kind]. now rewrite K.
        - destruct (end_time r) as [s|] eqn:E; [|congruence].
          apply (all_of_fails _ _ _ (Compare (Column "timestamp") false (Literal s))).
          + unfold comparisons_of. rewrite E. apply in_app_iff. right. apply in_app_iff. right. now left.
          + unfold compile. cbn [left_side right_side operand_kind]. now rewrite K. }
      destruct (comparisons_of r) as [|c cs]; [discriminate|]. cbn [predicate any_of]. rewrite A.
      reflexivity.
    + intros c a Hc. apply W1, (I c a Hc).
    + exact G.
    + exact Tg.
    + intros _. exact S.
  - apply X.
  - exact Ne.
  - intros c a Hc. apply (W1 c (I c a Hc)).
  - eapply Forall_impl; [|exact G]. now intros n (Pn & _).
  - intros c v Hc. split; [apply (Tg c v Hc)|now apply (W2 c v)].
  - exact W3.
Qed.

(** A table with the wind in two parks. *)
Definition wind : data :=
  Data [("timestamp", Time_column); ("park", Tag_column); ("speed", Field_column)]
    [[Time 100; Tag "north"; Field 7]; [Time 200; Tag "o'hara"; Field 8];
     [Time 300; Tag "north"; Field 9]]%Z.
Definition parks : database := [("wind", wind)].
Definition only (tags : list (string * string)) : request := Request [] [] None None tags.
Definition not_reserved (reserved : string -> bool) (words : list string) : Prop :=
  Forall (fun w => reserved w = false) words.

Lemma wind_proper : proper wind /\ holds parks "wind" wind.
Proof.
  split; [split; [|split]|].
  - repeat constructor; cbn; intuition discriminate.
  - discriminate.
  - repeat constructor.
  - split; [|now left]. repeat constructor; cbn; intuition.
Qed.

(** A quote in the value of a tag. *)
Lemma quote_returns_all : forall reserved timestamp_of aggregated,
  not_reserved reserved ["WIND"; "TIMESTAMP"; "PARK"; "SPEED"] ->
  let r := only [("park", "south' OR 'a' = 'a")] in
  Forall (fun row => ~ wanted timestamp_of (schema wind) r row) (rows wind)
  /\ fits timestamp_of (schema wind) r
  /\ read reserved timestamp_of aggregated "wind" r parks = Ok (rows wind).
Proof.
  intros reserved timestamp_of aggregated H r. unfold not_reserved in H.
  inversion H as [|? ? H1 H']; subst. inversion H' as [|? ? H2 H'']; subst.
  inversion H'' as [|? ? H3 H''']; subst. inversion H''' as [|? ? H4 _]; subst. split; [|split].
  - apply Forall_forall. intros row Hr (W & _).
    specialize (W "park" "south' OR 'a' = 'a" (or_introl eq_refl)).
    destruct W as (i & E1 & E2). destruct i as [|[|[|i]]]; try discriminate E1.
    + destruct Hr as [<-|[<-|[<-|[]]]]; discriminate E2.
    + destruct i; discriminate E1.
  - split; [intros c a []|]. split; [intros c []|]. split.
    + intros c v [E|[]]. injection E as <- <-. right. now left.
    + intros s [E|E]; discriminate.
  - unfold read. change (find _ parks) with (Some ("wind", wind)). cbn iota.
    set (ts := tokens_of _). vm_compute in ts. subst ts. cbn [bind].
    match goal with |- context [parse_query reserved ?ts] =>
      assert (Q : parse_query reserved ts
        = Ok (Query [(None, "timestamp"); (None, "park"); (None, "speed")] "wind"
                [[Compare (Column "park") true (Literal "south")];
                 [Compare (Literal "a") true (Literal "a")]] []));
        [|rewrite Q; vm_compute; reflexivity] end.
    assert (I : forall n u, map_string to_upper n = u -> reserved u = false ->
      identifier reserved n false = Ok (map_string to_lower n)).
    { intros n u E R. unfold identifier. now rewrite E, R. }
    unfold parse_query, parse_items. rewrite (I "timestamp" "TIMESTAMP" eq_refl H2).
    rewrite (I "park" "PARK" eq_refl H3), (I "speed" "SPEED" eq_refl H4). cbn [bind].
    rewrite (I "wind" "WIND" eq_refl H1). unfold parse_where, parse_condition, parse_operand.
    rewrite (I "park" "PARK" eq_refl H3). reflexivity.
Qed.
Lemma quote_not_found : forall reserved timestamp_of aggregated,
  not_reserved reserved ["WIND"; "TIMESTAMP"; "PARK"; "SPEED"] ->
  let r := only [("park", "o'hara")] in
  (exists row, In row (rows wind) /\ wanted timestamp_of (schema wind) r row)
  /\ fits timestamp_of (schema wind) r
  /\ read reserved timestamp_of aggregated "wind" r parks = Err.
Proof.
  intros reserved timestamp_of aggregated H r. split; [|split].
  - exists [Time 200; Tag "o'hara"; Field 8]%Z. split; [right; now left|]. split; [|split].
    + intros n v [E|[]]. injection E as <- <-. now exists 1.
    + discriminate.
    + discriminate.
  - split; [intros c a []|]. split; [intros c []|]. split.
    + intros c v [E|[]]. injection E as <- <-. right. now left.
    + intros s [E|E]; discriminate.
  - unfold read. change (find _ parks) with (Some ("wind", wind)). cbn iota.
    set (ts := tokens_of _). vm_compute in ts. subst ts. reflexivity.
Qed.

(** A column whose name is not in lower case. *)
Definition mixed : data :=
  Data [("timestamp", Time_column); ("Speed", Field_column)] [[Time 100; Field 7]]%Z.
Lemma upper_not_read : forall reserved timestamp_of aggregated,
  not_reserved reserved ["WIND"; "TIMESTAMP"; "SPEED"] ->
  proper mixed /\ holds [("wind", mixed)] "wind" mixed
  /\ fits timestamp_of (schema mixed) (only [])
  /\ read reserved timestamp_of aggregated "wind" (only []) [("wind", mixed)] = Err.
Proof.
  intros reserved timestamp_of aggregated H. unfold not_reserved in H.
  inversion H as [|? ? H1 H']; subst. inversion H' as [|? ? H2 H'']; subst.
  inversion H'' as [|? ? H3 _]; subst. split; [|split; [|split]].
  - split; [repeat constructor; cbn; intuition discriminate|]. split; [discriminate|repeat constructor].
  - split; [|now left]. repeat constructor; cbn; intuition.
  - split; [intros c a []|]. split; [intros c []|]. split; [intros c v []|]. intros s [E|E]; discriminate.
  - unfold read. cbn [find fst]. rewrite String.eqb_refl.
    set (ts := tokens_of _). vm_compute in ts. subst ts. cbn [bind].
    match goal with |- context [parse_query reserved ?ts] =>
      assert (Q : parse_query reserved ts
        = Ok (Query [(None, "timestamp"); (None, "speed")] "wind" [] []));
        [|rewrite Q; vm_compute; reflexivity] end.
    assert (I : forall n u, map_string to_upper n = u -> reserved u = false ->
      identifier reserved n false = Ok (map_string to_lower n)).
    { intros n u E R. unfold identifier. now rewrite E, R. }
    unfold parse_query, parse_items. rewrite (I "timestamp" "TIMESTAMP" eq_refl H2).
    rewrite (I "Speed" "SPEED" eq_refl H3). cbn [bind]. rewrite (I "wind" "WIND" eq_refl H1). reflexivity.
Qed.

(** An example. *)
Definition seconds (s : string) : option Z :=
  if String.eqb s "1970-01-01T00:02:00" then Some 120%Z else None.
Definition words (w : string) : bool :=
  existsb (String.eqb w) ["SELECT"; "FROM"; "WHERE"; "GROUP"; "AND"; "OR"; "ORDER"; "LIMIT"].
Definition north : request :=
  Request [("speed", Plain); ("timestamp", Plain)] [] (Some "1970-01-01T00:02:00") None [("park", "north")].
Definition north_count : request :=
  Request [("park", Plain); ("speed", Count)] ["park"] (Some "1970-01-01T00:02:00") None [("park", "north")].

Lemma simple_bool : forall reserved c s, identifier_start c = true ->
  forallb identifier_part (list_ascii_of_string s) = true ->
  map_string to_lower (String c s) = String c s -> reserved (map_string to_upper (String c s)) = false ->
  simple reserved (String c s).
Proof. intros reserved c s H F L R. split; [now apply plain_bool|]. now split. Qed.

Lemma wind_example :
  proper wind /\ holds parks "wind" wind /\ simple words "wind"
  /\ (forall r, r = north \/ r = north_count -> fits seconds (schema wind) r /\ written words (schema wind) r)
  /\ Forall (fun c => snd c = Plain) (columns north) /\ group_by north = []
  /\ generate_sql "wind" (map fst (schema wind)) north
     = "SELECT speed, timestamp FROM wind WHERE park = 'north' AND '1970-01-01T00:02:00' <= timestamp "
  /\ generate_sql "wind" (map fst (schema wind)) north_count
     = "SELECT park, COUNT(speed) FROM wind WHERE park = 'north' AND '1970-01-01T00:02:00' <= timestamp GROUP BY park"
  /\ read words seconds (fun _ _ _ _ => Err) "wind" north parks = Ok [[Field 9; Time 300]]%Z
  /\ read words seconds (fun _ items groups rows => Ok rows) "wind" north_count parks
     = Ok [[Time 300; Tag "north"; Field 9]]%Z.
Proof.
  destruct wind_proper as (P & Hd). split; [exact P|]. split; [exact Hd|].
  split; [now apply simple_bool|]. split.
  { assert (W : Forall (simple words) (map fst (schema wind))).
    { repeat (constructor; [now apply simple_bool|]). constructor. }
    assert (Q1 : no_quote "north") by (intros [X|[X|[X|[X|[X|[]]]]]]; discriminate).
    assert (Q2 : no_quote "1970-01-01T00:02:00").
    { unfold no_quote, has_char. cbn. intuition discriminate. }
    intros r Hr. assert (T : tags r = [("park", "north")]) by (destruct Hr; now subst r).
    assert (S : start_time r = Some "1970-01-01T00:02:00") by (destruct Hr; now subst r).
    assert (E : end_time r = None) by (destruct Hr; now subst r).
    split.
    - split; [|split; [|split]].
      + intros c a Hc. destruct Hr; subst r; destruct Hc as [X|[X|[]]]; injection X as <- <-; cbn; auto.
      + intros c Hc. destruct Hr; subst r; cbn in Hc; [contradiction|]. destruct Hc as [X|[]]. subst c. cbn. auto.
      + intros c v Hc. rewrite T in Hc. destruct Hc as [X|[]]. injection X as <- <-. cbn. auto.
      + intros s Hs. rewrite S, E in Hs. destruct Hs as [X|X]; [|discriminate]. injection X as <-.
        split; [now left|discriminate].
    - split; [exact W|]. split.
      + intros c v Hc. rewrite T in Hc. destruct Hc as [X|[]]. injection X as <- <-. exact Q1.
      + intros s Hs. rewrite S, E in Hs. destruct Hs as [X|X]; [|discriminate]. injection X as <-. exact Q2. }
  split; [repeat constructor|]. split; [reflexivity|].
  repeat split; vm_compute; reflexivity.
Qed.

(** A table whose timestamps have another name. *)
Definition other : data :=
  Data [("time", Time_column); ("speed", Field_column)] [[Time 100; Field 7]]%Z.
Lemma other_example :
  holds [("wind", other)] "wind" other /\ simple words "wind"
  /\ written words (schema other) (Request [] [] (Some "1970-01-01T00:02:00") None [])
  /\ simple words "timestamp" /\ ~ In "timestamp" (map fst (schema other))
  /\ read words seconds (fun _ _ _ _ => Err) "wind" (only []) [("wind", other)] = Ok [[Time 100; Field 7]]%Z.
Proof.
  split; [split; [repeat constructor; cbn; intuition|now left]|]. split; [now apply simple_bool|].
  split.
  { split; [repeat (constructor; [now apply simple_bool|]); constructor|]. split; [intros c v []|].
    intros s [X|X]; [|discriminate]. injection X as <-. unfold no_quote, has_char. cbn. intuition discriminate. }
  split; [now apply simple_bool|]. split; [cbn; intuition discriminate|]. vm_compute. reflexivity.
Qed.

(** A tag with a quote that is doubled. *)
Definition hara_count : request :=
  Request [("park", Plain); ("speed", Count)] ["park"] None None [("park", "o'hara")].
Lemma hara_example :
  proper wind /\ holds parks "wind" wind /\ simple words "wind"
  /\ (forall r, r = only [("park", "o'hara")] \/ r = hara_count ->
       fits seconds (schema wind) r /\ written_doubled words (schema wind) r)
  /\ with_quotes (only [("park", "o'hara")]) = only [("park", "o''hara")]
  /\ read words seconds (fun _ _ _ _ => Err) "wind" (with_quotes (only [("park", "o'hara")])) parks
     = Ok [[Time 200; Tag "o'hara"; Field 8]]%Z
  /\ In ("speed", Count) (columns hara_count)
  /\ read words seconds (fun _ items groups rows => Ok rows) "wind" (with_quotes hara_count) parks
     = Ok [[Time 200; Tag "o'hara"; Field 8]]%Z.
Proof.
  destruct wind_proper as (P & Hd). split; [exact P|]. split; [exact Hd|].
  split; [now apply simple_bool|]. split.
  { intros r Hr. assert (T : tags r = [("park", "o'hara")]) by (destruct Hr; now subst r).
    assert (S : start_time r = None) by (destruct Hr; now subst r).
    assert (E : end_time r = None) by (destruct Hr; now subst r).
    split.
    - split; [|split; [|split]].
      + intros c a Hc. destruct Hr; subst r; cbn in Hc; [contradiction|].
        destruct Hc as [X|[X|[]]]; injection X as <- <-; cbn; auto.
      + intros c Hc. destruct Hr; subst r; cbn in Hc; [contradiction|]. destruct Hc as [X|[]]. subst c. cbn. auto.
      + intros c v Hc. rewrite T in Hc. destruct Hc as [X|[]]. injection X as <- <-. cbn. auto.
      + intros s Hs. rewrite S, E in Hs. destruct Hs; discriminate.
    - split; [repeat (constructor; [now apply simple_bool|]); constructor|].
      intros s Hs. rewrite S, E in Hs. destruct Hs; discriminate. }
  split; [reflexivity|]. split; [vm_compute; reflexivity|]. split; [right; now left|].
  vm_compute. reflexivity.
Qed.
