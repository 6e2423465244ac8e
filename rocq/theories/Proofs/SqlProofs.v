(** Proofs about the text of statements. *)
From Coq Require Import ZArith Bool Ascii String List Lia.
From Verif Require Import Model.Base Model.Sql Model.Statements Spec.StatementSpec.
Import ListNotations.
Open Scope nat_scope.
Open Scope list_scope.

Lemma keyword_iff : forall k t, is_keyword k t = true <-> keyword k t.
Proof.
  intros k t. split.
  - destruct t as [value [|]| | | | |]; cbn [is_keyword]; try discriminate. intros H.
    apply String.eqb_eq in H. now exists value.
  - intros (value & -> & <-). cbn [is_keyword]. apply String.eqb_refl.
Qed.

(** Names separated by commas. *)
Definition no_comma (tokens : list token) : Prop := forall rest, tokens <> Comma :: rest.
Definition no_period (tokens : list token) : Prop := forall rest, tokens <> Period :: rest.

Lemma listing_cons : forall p names, names <> [] ->
  listing (p :: names) = Word (fst p) (snd p) :: Comma :: listing names.
Proof. intros (v, q) [|n names] H; [contradiction|reflexivity]. Qed.

Lemma parse_listing : forall names rest, names <> [] -> no_comma rest ->
  parse_table_names (listing names ++ rest) = Ok (map fst names, rest).
Proof.
  induction names as [|(v, q) names IH]; intros rest N H; [contradiction|].
  destruct names as [|p names].
  - cbn [listing app parse_table_names map fst]. destruct rest as [|[]]; try reflexivity.
    now destruct (H rest).
  - rewrite listing_cons by discriminate. cbn [app fst snd parse_table_names].
    rewrite (IH rest) by (discriminate || assumption). reflexivity.
Qed.

Lemma listing_parsed : forall n tokens names rest, length tokens <= n ->
  parse_table_names tokens = Ok (names, rest) ->
  exists written, written <> [] /\ tokens = listing written ++ rest /\ map fst written = names
    /\ no_comma rest.
Proof.
  induction n as [|n IH]; intros tokens names rest L H.
  { destruct tokens; [discriminate|cbn in L; lia]. }
  destruct tokens as [|[v q| | | | |] tokens]; try discriminate.
  assert (One : no_comma tokens -> Ok ([v], tokens) = Ok (names, rest) ->
    exists written, written <> [] /\ Word v q :: tokens = listing written ++ rest
      /\ map fst written = names /\ no_comma rest).
  { intros Hc E. assert ([v] = names /\ tokens = rest) as (<- & <-) by (split; congruence).
    exists [(v, q)]. repeat split; [discriminate|exact Hc]. }
  destruct tokens as [|[v' q'| | | | |] tokens];
    try (apply One; [intros r; discriminate|exact H]).
  cbn [parse_table_names] in H.
  destruct (parse_table_names tokens) as [(names', rest')| |] eqn:E; cbn [bind] in H; try discriminate.
  assert (v :: names' = names /\ rest' = rest) as (<- & <-) by (split; congruence).
  destruct (IH tokens names' rest') as (written & W1 & W2 & W3 & W4); [cbn in L; lia|exact E|].
  exists ((v, q) :: written). split; [discriminate|]. split; [|split; [|exact W4]].
  - rewrite listing_cons by exact W1. cbn [app fst snd]. now rewrite W2.
  - cbn [map fst]. now rewrite W3.
Qed.

Lemma parts_cons : forall p names, names <> [] ->
  parts (p :: names) = Word (fst p) (snd p) :: Period :: parts names.
Proof. intros (v, q) [|n names] H; [contradiction|reflexivity]. Qed.

Fixpoint more_parts (names : list (string * bool)) : list token :=
  match names with
  | [] => []
  | (v, q) :: names => Period :: Word v q :: more_parts names
  end.
Lemma parts_more : forall p names, parts (p :: names) = Word (fst p) (snd p) :: more_parts names.
Proof.
  intros p names. revert p. induction names as [|r names IH]; intros p; [now destruct p|].
  rewrite parts_cons by discriminate. rewrite (IH r). now destruct r.
Qed.

Lemma parse_more : forall names rest, no_period rest ->
  parse_parts (more_parts names ++ rest) = Ok (map fst names, rest).
Proof.
  induction names as [|(v, q) names IH]; intros rest H; cbn [more_parts app parse_parts map fst].
  - destruct rest as [|[] rest]; try reflexivity. now destruct (H rest).
  - now rewrite (IH rest H).
Qed.

Lemma parsed_more : forall n tokens names rest, length tokens <= n ->
  parse_parts tokens = Ok (names, rest) ->
  exists written, tokens = more_parts written ++ rest /\ map fst written = names /\ no_period rest.
Proof.
  induction n as [|n IH]; intros tokens names rest L H.
  { destruct tokens; [|cbn in L; lia]. cbn in H.
    assert ([] = names /\ [] = rest) as (<- & <-) by (split; congruence).
    exists []. repeat split. intros r. discriminate. }
  destruct tokens as [|t tokens].
  { cbn in H. assert ([] = names /\ [] = rest) as (<- & <-) by (split; congruence).
    exists []. repeat split. intros r. discriminate. }
  destruct t; try (cbn in H; assert ([] = names) as <- by congruence;
    assert (X := f_equal (fun o => match o with Ok (_, r) => r | _ => [] end) H); cbn in X; subst rest;
    exists []; repeat split; intros r; discriminate).
  destruct tokens as [|[v q| | | | |] tokens]; try discriminate. cbn [parse_parts] in H.
  destruct (parse_parts tokens) as [(names', rest')| |] eqn:E; cbn [bind] in H; try discriminate.
  assert (v :: names' = names /\ rest' = rest) as (<- & <-) by (split; congruence).
  destruct (IH tokens names' rest') as (written & W2 & W3 & W4); [cbn in L; lia|exact E|].
  exists ((v, q) :: written). cbn [more_parts app map fst]. rewrite W2, W3. auto.
Qed.

Definition stripped (names : list (list (string * bool))) : list (list string) := map (map fst) names.

Lemma parts_listing_cons : forall name names, names <> [] ->
  parts_listing (name :: names) = parts name ++ Comma :: parts_listing names.
Proof. intros name [|n names] H; [contradiction|reflexivity]. Qed.

Lemma parse_names_one : forall fuel name rest, name <> [] -> no_comma rest -> no_period rest ->
  parse_object_names (S fuel) (parts name ++ rest) = Ok ([map fst name], rest).
Proof.
  intros fuel [|p name] rest N H1 H2; [contradiction|]. rewrite parts_more.
  cbn [app parse_object_names]. rewrite (parse_more name rest H2). cbn [bind map].
  destruct rest as [|[] rest]; try reflexivity. now destruct (H1 rest).
Qed.

Lemma parse_names : forall names fuel rest, names <> [] -> Forall (fun n => n <> []) names ->
  no_comma rest -> no_period rest -> length names <= fuel ->
  parse_object_names fuel (parts_listing names ++ rest) = Ok (stripped names, rest).
Proof.
  induction names as [|name names IH]; intros fuel rest N F H1 H2 L; [contradiction|].
  inversion F as [|? ? F1 F2]; subst. destruct fuel as [|fuel]; [cbn in L; lia|].
  destruct names as [|name' names].
  - apply parse_names_one; assumption.
  - rewrite parts_listing_cons by discriminate. rewrite <- app_assoc. destruct name as [|p name]; [contradiction|].
    rewrite parts_more. cbn [app parse_object_names].
    rewrite (parse_more name) by (intros r; discriminate). cbn [bind].
    rewrite (IH fuel rest); [reflexivity|discriminate|exact F2|exact H1|exact H2|cbn in *; lia].
Qed.

Lemma parsed_names : forall fuel tokens names rest,
  parse_object_names fuel tokens = Ok (names, rest) ->
  exists written, written <> [] /\ Forall (fun n => n <> []) written
    /\ tokens = parts_listing written ++ rest /\ stripped written = names
    /\ no_comma rest /\ no_period rest.
Proof.
  induction fuel as [|fuel IH]; intros tokens names rest H; [discriminate|].
  destruct tokens as [|[v q| | | | |] tokens]; try discriminate. cbn [parse_object_names] in H.
  destruct (parse_parts tokens) as [(more, rest')| |] eqn:E; cbn [bind] in H; try discriminate.
  destruct (parsed_more (length tokens) tokens more rest' (le_n _) E) as (written & W1 & W2 & W3).
  assert (One : no_comma rest' -> Ok ([v :: more], rest') = Ok (names, rest) ->
    exists written, written <> [] /\ Forall (fun n => n <> []) written
      /\ Word v q :: tokens = parts_listing written ++ rest /\ stripped written = names
      /\ no_comma rest /\ no_period rest).
  { intros Hc X. assert ([v :: more] = names /\ rest' = rest) as (<- & <-) by (split; congruence).
    exists [(v, q) :: written]. split; [discriminate|]. split; [constructor; [discriminate|constructor]|].
    split; [|split; [|split; assumption]].
    - cbn [parts_listing]. rewrite parts_more. cbn [app fst snd]. now rewrite W1.
    - cbn [stripped map fst]. now rewrite W2. }
  destruct rest' as [|[] rest']; try (apply One; [intros r; discriminate|exact H]).
  destruct (parse_object_names fuel rest') as [(names', rest'')| |] eqn:E2; cbn [bind] in H; try discriminate.
  assert ((v :: more) :: names' = names /\ rest'' = rest) as (<- & <-) by (split; congruence).
  destruct (IH _ _ _ E2) as (written' & V1 & V2 & V3 & V4 & V5).
  exists (((v, q) :: written) :: written'). split; [discriminate|].
  split; [constructor; [discriminate|exact V2]|]. split; [|split; [|exact V5]].
  - rewrite parts_listing_cons by exact V1. rewrite parts_more. cbn [app fst snd].
    rewrite W1, V3. now rewrite <- app_assoc.
  - unfold stripped in *. cbn [map fst]. now rewrite W2, V4.
Qed.

(** Joining and splitting. *)
Lemma split_none : forall c s, ~ has_char c s -> split c s = (s, []).
Proof.
  intros c. induction s as [|d s IH]; intros H; [reflexivity|]. cbn [split].
  rewrite IH by (intros X; apply H; now right).
  destruct (Ascii.eqb_spec d c) as [E|N]; [|reflexivity]. destruct H. now left.
Qed.
Lemma split_app : forall c s rest, ~ has_char c s ->
  split c (s ++ String c rest)%string = (s, let '(f, l) := split c rest in f :: l).
Proof.
  intros c. induction s as [|d s IH]; intros rest H; cbn [append split].
  - destruct (split c rest) as (f, l). now rewrite Ascii.eqb_refl.
  - rewrite IH by (intros X; apply H; now right).
    destruct (Ascii.eqb_spec d c) as [E|N]; [destruct H; now left|reflexivity].
Qed.
Lemma join_cons : forall sep s l, l <> [] -> join sep (s :: l) = (s ++ sep ++ join sep l)%string.
Proof. intros sep s [|a l] H; [contradiction|reflexivity]. Qed.

Lemma split_join : forall names, names <> [] -> Forall (fun n => ~ has_char ";" n) names ->
  (let '(f, l) := split ";" (join ";" names) in f :: l) = names.
Proof.
  induction names as [|n names IH]; intros N F; [contradiction|].
  inversion F as [|? ? F1 F2]; subst. destruct names as [|m names].
  - cbn [join]. now rewrite split_none.
  - rewrite join_cons by discriminate. cbn [append]. rewrite split_app by exact F1.
    f_equal. apply IH; [discriminate|exact F2].
Qed.
Lemma without_last : forall l, last l EmptyString <> EmptyString -> without_empty_last l = l.
Proof.
  induction l as [|s l IH]; intros H; [reflexivity|]. destruct l as [|t l].
  - cbn [last] in H. cbn. destruct (String.eqb_spec s EmptyString) as [E|N]; [contradiction|reflexivity].
  - change (without_empty_last (s :: t :: l)) with (s :: without_empty_last (t :: l)).
    now rewrite IH.
Qed.
Lemma split_terminator_join : forall names, Forall (fun n => ~ has_char ";" n) names ->
  (names <> [] -> last names EmptyString <> EmptyString) ->
  split_terminator ";" (join ";" names) = names.
Proof.
  intros names F L. destruct names as [|n names]; [reflexivity|].
  pose proof (split_join (n :: names) ltac:(discriminate) F) as E. unfold split_terminator.
  destruct (split ";" (join ";" (n :: names))) as (f, l). rewrite E. apply without_last, L. discriminate.
Qed.

(** The end of a statement. *)
Lemma stops_iff : forall tokens,
  forallb (fun t => match t with Semicolon => true | _ => false end) tokens = true <-> stops tokens.
Proof.
  intros tokens. unfold stops. rewrite forallb_forall, Forall_forall. split; intros H t Ht;
    specialize (H t Ht); destruct t; congruence.
Qed.
Lemma stops_no_comma : forall tokens, stops tokens -> no_comma tokens.
Proof. intros tokens H rest ->. inversion H. discriminate. Qed.
Lemma stops_no_period : forall tokens, stops tokens -> no_period tokens.
Proof. intros tokens H rest ->. inversion H. discriminate. Qed.

Lemma cluster_parsed : forall tokens cluster rest, parse_cluster tokens = (cluster, rest) ->
  exists c, tokens = c ++ rest /\ cluster_written cluster c.
Proof.
  intros tokens cluster rest H. destruct tokens as [|t tokens]; cbn [parse_cluster] in H.
  - assert (false = cluster /\ [] = rest) as (<- & <-) by (split; congruence). now exists [].
  - destruct (is_keyword "CLUSTER" t) eqn:K.
    + assert (true = cluster /\ tokens = rest) as (<- & <-) by (split; congruence).
      exists [t]. split; [reflexivity|]. exists t. split; [reflexivity|now apply keyword_iff].
    + assert (false = cluster) as <- by congruence.
      assert (t :: tokens = rest) as <- by congruence. now exists [].
Qed.
Lemma parse_cluster_written : forall c cluster t rest, cluster_written cluster c ->
  is_keyword "CLUSTER" t = false -> parse_cluster (c ++ t :: rest) = (cluster, t :: rest).
Proof.
  intros c [|] t rest H K; cbn [cluster_written] in H.
  - destruct H as (t' & -> & Kt). cbn [app parse_cluster]. apply keyword_iff in Kt. now rewrite Kt.
  - subst c. cbn [app parse_cluster]. now rewrite K.
Qed.

(** Which statements are accepted. *)
Lemma distinct_keywords : forall a b t, keyword a t -> a <> b -> is_keyword b t = false.
Proof.
  intros a b t (value & -> & <-) N. cbn [is_keyword]. now apply String.eqb_neq.
Qed.
Lemma not_keyword : forall k t, ~ keyword k t -> is_keyword k t = false.
Proof.
  intros k t H. destruct (is_keyword k t) eqn:E; [|reflexivity]. destruct H. now apply keyword_iff.
Qed.
Lemma listing_head : forall names, names <> [] ->
  exists v q l, names = (v, q) :: l /\ exists rest, listing names = Word v q :: rest.
Proof.
  intros [|(v, q) l] H; [contradiction|]. exists v, q, l. split; [reflexivity|].
  destruct l; eexists; reflexivity.
Qed.

Lemma accepted_drop : forall tokens names, parse_tokens tokens = Ok (Drop_table names) <->
  exists written, drop_statement written tokens
    /\ names = map (fun n => fold_left String.append (map fst n) EmptyString) written.
Proof.
  intros tokens names. split.
  - intros H. destruct tokens as [|k tokens]; [discriminate|]. unfold parse_tokens in H.
    destruct (is_keyword "VACUUM" k) eqn:K1.
    { exfalso. unfold parse_vacuum in H. destruct (parse_cluster tokens) as (c, ts).
      destruct (parse_optional_names ts) as [(ns, ts')| |]; try discriminate.
      cbn [bind] in H. destruct (parse_retention ts') as [(r, ts'')| |]; try discriminate.
      cbn [bind] in H. destruct (forallb _ ts''); discriminate. }
    destruct (is_keyword "TRUNCATE" k) eqn:K2.
    { exfalso. unfold parse_truncate in H. destruct (parse_cluster tokens) as (c, ts).
      destruct (parse_table_names ts) as [(ns, ts')| |]; try discriminate.
      cbn [bind] in H. destruct (forallb _ ts'); discriminate. }
    destruct (is_keyword "DROP" k) eqn:K3; [|discriminate].
    destruct tokens as [|t tokens]; [discriminate|].
    destruct (is_keyword "TABLE" t) eqn:K4; [|discriminate].
    unfold parse_drop in H.
    destruct (parse_object_names (length tokens) tokens) as [(ns, rest)| |] eqn:E; cbn [bind] in H;
      try discriminate.
    destruct (forallb _ rest) eqn:S; [|discriminate]. apply stops_iff in S.
    destruct (parsed_names _ _ _ _ E) as (written & W1 & W2 & W3 & W4 & _). exists written. split.
    + exists k, t, rest. rewrite <- !keyword_iff, W3. auto 10.
    + assert (X : Drop_table (map (fun parts => fold_left append parts EmptyString) ns) = Drop_table names)
        by congruence. injection X as <-. rewrite <- W4. unfold stripped. now rewrite map_map.
  - intros (written & (k & t & s & K1 & K2 & N & F & S & ->) & ->). unfold parse_tokens.
    rewrite (distinct_keywords _ "VACUUM" k K1), (distinct_keywords _ "TRUNCATE" k K1) by discriminate.
    apply keyword_iff in K1, K2. rewrite K1, K2. unfold parse_drop.
    rewrite (parse_names written).
    + cbn [bind]. apply stops_iff in S. rewrite S. unfold stripped. now rewrite map_map.
    + exact N.
    + exact F.
    + now apply stops_no_comma.
    + now apply stops_no_period.
    + rewrite app_length. clear - F. induction F as [|n ns Hn F IH]; [cbn; lia|].
      destruct ns as [|n' ns]; [destruct n as [|p n]; [contradiction|]; cbn [parts_listing]; rewrite parts_more; cbn; lia|].
      rewrite parts_listing_cons by discriminate. rewrite app_length. cbn [length] in *. lia.
Qed.

Lemma accepted_truncate : forall tokens names cluster,
  parse_tokens tokens = Ok (Truncate_table names cluster) <->
  exists written, truncate_statement written cluster tokens /\ names = map fst written.
Proof.
  intros tokens names cluster. split.
  - intros H. destruct tokens as [|k tokens]; [discriminate|]. unfold parse_tokens in H.
    destruct (is_keyword "VACUUM" k) eqn:K1.
    { exfalso. unfold parse_vacuum in H. destruct (parse_cluster tokens) as (c, ts).
      destruct (parse_optional_names ts) as [(ns, ts')| |]; try discriminate.
      cbn [bind] in H. destruct (parse_retention ts') as [(r, ts'')| |]; try discriminate.
      cbn [bind] in H. destruct (forallb _ ts''); discriminate. }
    destruct (is_keyword "TRUNCATE" k) eqn:K2.
    2: { exfalso. destruct (is_keyword "DROP" k); [|discriminate].
      destruct tokens as [|t tokens]; [discriminate|].
      destruct (is_keyword "TABLE" t); [|discriminate]. unfold parse_drop in H.
      destruct (parse_object_names (length tokens) tokens) as [(ns, rest)| |]; cbn [bind] in H;
        try discriminate. destruct (forallb _ rest); discriminate. }
    unfold parse_truncate in H. destruct (parse_cluster tokens) as (c, ts) eqn:C.
    destruct (parse_table_names ts) as [(ns, rest)| |] eqn:E; cbn [bind] in H; try discriminate.
    destruct (forallb _ rest) eqn:S; [|discriminate]. apply stops_iff in S.
    assert (X : Truncate_table ns c = Truncate_table names cluster) by congruence.
    injection X as -> ->.
    destruct (listing_parsed _ _ _ _ (le_n _) E) as (written & W1 & W2 & W3 & _).
    destruct (cluster_parsed _ _ _ C) as (cs & C1 & C2).
    exists written. split; [|now symmetry]. exists k, cs, rest. rewrite <- keyword_iff.
    split; [exact K2|]. split; [exact C2|]. split; [exact W1|]. split; [exact S|].
    split; [|now rewrite C1, W2]. intros ->. cbn [cluster_written] in C2. subst cs.
    cbn [app] in C1. subst tokens ts. destruct (listing_head written W1) as (v & q & l & -> & rest' & L).
    cbn [not_first]. rewrite L in C. cbn [app parse_cluster] in C. intros Kc. apply keyword_iff in Kc.
    rewrite Kc in C. discriminate.
  - intros (written & (k & c & s & K & Hc & N & S & F & ->) & ->). unfold parse_tokens.
    rewrite (distinct_keywords _ "VACUUM" k K) by discriminate. apply keyword_iff in K. rewrite K.
    unfold parse_truncate. destruct (listing_head written N) as (v & q & l & El & rest' & L).
    assert (P : parse_cluster (c ++ listing written ++ s) = (cluster, listing written ++ s)).
    { rewrite L. cbn [app]. destruct cluster.
      - destruct Hc as (t & -> & Kt). apply keyword_iff in Kt. cbn [app parse_cluster]. now rewrite Kt.
      - apply parse_cluster_written; [exact Hc|]. apply not_keyword. specialize (F eq_refl).
        now rewrite El in F. }
    rewrite P, parse_listing by (assumption || now apply stops_no_comma). cbn [bind].
    apply stops_iff in S. now rewrite S.
Qed.

Lemma digit_iff : forall c, digit c = true <-> 48 <= nat_of_ascii c <= 57.
Proof.
  intros c. unfold digit, between. change (nat_of_ascii "0") with 48. change (nat_of_ascii "9") with 57.
  rewrite andb_true_iff, !Nat.leb_le. reflexivity.
Qed.
Lemma number_iff : forall digits a z, number digits a = Some z <->
  Forall (fun c => 48 <= nat_of_ascii c <= 57) digits
  /\ z = (a * 10 ^ Z.of_nat (List.length digits) + digits_value digits)%Z.
Proof.
  induction digits as [|c digits IH]; intros a z; cbn [number digits_value List.length].
  - change (10 ^ Z.of_nat 0)%Z with 1%Z. rewrite Z.mul_1_r, Z.add_0_r.
    split; [intros X; injection X as <-; auto|]. intros (_ & ->). reflexivity.
  - assert (P : (10 ^ Z.of_nat (S (List.length digits)) = 10 * 10 ^ Z.of_nat (List.length digits))%Z).
    { rewrite Nat2Z.inj_succ, Z.pow_succ_r by lia. reflexivity. }
    rewrite P. destruct (digit c) eqn:D.
    + rewrite IH. apply digit_iff in D. unfold digit_value. split.
      * intros (F & ->). split; [now constructor|]. ring.
      * intros (F & ->). inversion F; subst. split; [assumption|]. ring.
    + split; [discriminate|]. intros (F & _). inversion F as [|? ? H _]; subst. apply digit_iff in H.
      congruence.
Qed.
Lemma parse_u64_iff : forall digits z, (z <= max_retention)%Z ->
  parse_u64 digits = Ok z <-> number_written digits z.
Proof.
  intros digits z M. unfold parse_u64, number_written. split.
  - destruct (number digits 0) as [y|] eqn:E; [|discriminate].
    destruct (y <? 2 ^ 64)%Z; [|discriminate]. intros X. injection X as <-.
    apply number_iff in E. destruct E as (F & ->). split; [exact F|]. lia.
  - intros (F & E). assert (N : number digits 0 = Some z) by (apply number_iff; split; [exact F|lia]).
    rewrite N. destruct (Z.ltb_spec z (2 ^ 64)) as [L|L]; [reflexivity|].
    exfalso. assert (max_retention < 2 ^ 64)%Z by now vm_compute. lia.
Qed.

Lemma retention_parsed : forall tokens retention rest,
  parse_retention tokens = Ok (retention, rest) ->
  exists r, retention_written retention r /\ tokens = r ++ rest.
Proof.
  intros tokens retention rest H. unfold parse_retention in H. destruct tokens as [|t tokens].
  - assert (None = retention /\ [] = rest) as (<- & <-) by (split; congruence). now exists [].
  - destruct (is_keyword "RETAIN" t) eqn:K.
    + destruct tokens as [|[| digits| | | |] tokens]; try discriminate.
      destruct (parse_u64 digits) as [period| |] eqn:P; cbn [bind] in H; try discriminate.
      destruct (Z.gtb_spec period max_retention) as [G|G]; [discriminate|].
      assert (Some period = retention /\ tokens = rest) as (<- & <-) by (split; congruence).
      exists [t; Number digits]. split; [|reflexivity]. exists t, digits.
      split; [reflexivity|]. split; [now apply keyword_iff|].
      split; [now apply parse_u64_iff|exact G].
    + assert (None = retention) as <- by congruence. assert (t :: tokens = rest) as <- by congruence.
      now exists [].
Qed.
Lemma parse_retention_written : forall r retention rest, retention_written retention r ->
  stops rest -> parse_retention (r ++ rest) = Ok (retention, rest).
Proof.
  intros r [period|] rest H S; cbn [retention_written] in H.
  - destruct H as (t & digits & -> & K & P & L). cbn [app parse_retention]. apply keyword_iff in K.
    apply parse_u64_iff in P; [|exact L]. rewrite K, P.
    cbn [bind]. destruct (Z.gtb_spec period max_retention) as [G|G]; [|reflexivity].
    unfold max_retention in G. lia.
  - subst r. cbn [app]. destruct rest as [|t rest]; [reflexivity|].
    inversion S as [|? ? E]; subst. reflexivity.
Qed.

Lemma accepted_vacuum : forall tokens names retention cluster,
  parse_tokens tokens = Ok (Vacuum names retention cluster) <->
  exists written, vacuum_statement written retention cluster tokens
    /\ names = split_terminator ";" (join ";" (map fst written)).
Proof.
  intros tokens names retention cluster. split.
  - intros H. destruct tokens as [|k tokens]; [discriminate|]. unfold parse_tokens in H.
    destruct (is_keyword "VACUUM" k) eqn:K1.
    2: { exfalso. destruct (is_keyword "TRUNCATE" k) eqn:K2.
      { unfold parse_truncate in H. destruct (parse_cluster tokens) as (c, ts).
        destruct (parse_table_names ts) as [(ns, ts')| |]; try discriminate.
        cbn [bind] in H. destruct (forallb _ ts'); discriminate. }
      destruct (is_keyword "DROP" k); [|discriminate].
      destruct tokens as [|t tokens]; [discriminate|].
      destruct (is_keyword "TABLE" t); [|discriminate]. unfold parse_drop in H.
      destruct (parse_object_names (length tokens) tokens) as [(ns, rest)| |]; cbn [bind] in H;
        try discriminate. destruct (forallb _ rest); discriminate. }
    unfold parse_vacuum in H. destruct (parse_cluster tokens) as (c, ts) eqn:C.
    destruct (parse_optional_names ts) as [(ns, ts')| |] eqn:E1; try discriminate.
    cbn [bind] in H. destruct (parse_retention ts') as [(re, rest)| |] eqn:E2; try discriminate.
    cbn [bind] in H. destruct (forallb _ rest) eqn:S; [|discriminate]. apply stops_iff in S.
    assert (X : Vacuum (split_terminator ";" (join ";" ns)) re c = Vacuum names retention cluster)
      by congruence. injection X as X1 -> ->.
    destruct (retention_parsed _ _ _ E2) as (r & R1 & R2).
    destruct (cluster_parsed _ _ _ C) as (cs & C1 & C2).
    assert (W : exists written, map fst written = ns /\ ts = listing written ++ ts'
              /\ not_first "RETAIN" written).
    { assert (Z0 : Ok ([], ts) = Ok (ns, ts') -> exists written, map fst written = ns
                /\ ts = listing written ++ ts' /\ not_first "RETAIN" written).
      { intros Z0. assert ([] = ns /\ ts = ts') as (<- & <-) by (split; congruence). exists [].
        split; [reflexivity|]. split; [reflexivity|exact I]. }
      destruct ts as [|[v q| | | | |] ts]; try (apply Z0; exact E1). cbn [parse_optional_names] in E1.
      destruct (is_keyword "RETAIN" (Word v q)) eqn:K; [apply Z0; exact E1|].
      destruct (listing_parsed _ _ _ _ (le_n _) E1) as (written & W1 & W2 & W3 & _).
      exists written. split; [exact W3|]. split; [exact W2|].
      destruct (listing_head written W1) as (v' & q' & l & -> & rest' & L).
      rewrite L in W2. cbn [app] in W2. injection W2 as -> ->. cbn [not_first]. intros Kr.
      apply keyword_iff in Kr. congruence. }
    destruct W as (written & W1 & W2 & W3). exists written. split; [|now rewrite W1].
    exists k, cs, r, rest. rewrite <- keyword_iff. split; [exact K1|]. split; [exact C2|].
    split; [exact R1|]. split; [exact S|]. split; [|split; [exact W3|]].
    + intros ->. cbn [cluster_written] in C2. subst cs. cbn [app] in C1. subst tokens.
      destruct written as [|(v, q) l]; [exact I|].
      destruct (listing_head ((v, q) :: l)) as (v' & q' & l' & E & rest' & L); [discriminate|].
      injection E as <- <- <-. cbn [not_first]. rewrite W2, L in C. cbn [app parse_cluster] in C.
      intros Kc. apply keyword_iff in Kc. rewrite Kc in C. discriminate.
    + now rewrite C1, W2, R2.
  - intros (written & (k & c & r & s & K & Hc & R & S & F & Fr & ->) & ->). unfold parse_tokens.
    apply keyword_iff in K. rewrite K. unfold parse_vacuum.
    assert (P : parse_cluster (c ++ listing written ++ r ++ s) = (cluster, listing written ++ r ++ s)).
    { destruct cluster.
      - destruct Hc as (t & -> & Kt). apply keyword_iff in Kt. cbn [app parse_cluster]. now rewrite Kt.
      - cbn [cluster_written] in Hc. subst c. cbn [app]. destruct written as [|(v, q) l].
        + cbn [listing app]. destruct retention as [period|]; cbn [retention_written] in R.
          * destruct R as (t & digits & -> & Kt & _). cbn [app parse_cluster].
            now rewrite (distinct_keywords _ "CLUSTER" t Kt) by discriminate.
          * subst r. cbn [app]. destruct s as [|t s]; [reflexivity|].
            inversion S as [|? ? E]; subst. reflexivity.
        + destruct (listing_head ((v, q) :: l)) as (v' & q' & l' & E & rest' & L); [discriminate|].
          injection E as <- <- <-. rewrite L. cbn [app parse_cluster].
          rewrite (not_keyword _ _ (F eq_refl)). reflexivity. }
    rewrite P.
    assert (P2 : parse_optional_names (listing written ++ r ++ s) = Ok (map fst written, r ++ s)).
    { destruct written as [|(v, q) l].
      - cbn [listing app map]. destruct retention as [period|]; cbn [retention_written] in R.
        + destruct R as (t & digits & -> & Kt & _). cbn [app]. destruct Kt as (value & -> & Kt).
          cbn [parse_optional_names is_keyword]. rewrite Kt. reflexivity.
        + subst r. cbn [app]. destruct s as [|t s]; [reflexivity|].
          inversion S as [|? ? E]; subst. reflexivity.
      - destruct (listing_head ((v, q) :: l)) as (v' & q' & l' & E & rest' & L); [discriminate|].
        injection E as <- <- <-.
        assert (Nc : no_comma (r ++ s)).
        { destruct retention as [period|]; cbn [retention_written] in R.
          - destruct R as (t & digits & -> & (value & -> & _) & _). intros x. discriminate.
          - subst r. now apply stops_no_comma. }
        rewrite <- (parse_listing ((v, q) :: l) (r ++ s)) by (discriminate || exact Nc).
        rewrite L. cbn [app parse_optional_names]. rewrite (not_keyword _ _ Fr). reflexivity. }
    rewrite P2. cbn [bind]. rewrite (parse_retention_written r retention s R S). cbn [bind].
    apply stops_iff in S. now rewrite S.
Qed.

(** Names that are not quoted. *)
Lemma read_word : forall s w rest, Forall (fun c => identifier_part c = true) (list_ascii_of_string s) ->
  tokenize (s ++ rest) (In_word w) = tokenize rest (In_word (rev (list_ascii_of_string s) ++ w)).
Proof.
  induction s as [|c s IH]; intros w rest F; [reflexivity|].
  cbn [list_ascii_of_string] in F. inversion F as [|? ? F1 F2]; subst.
  cbn [append tokenize]. rewrite F1, (IH (c :: w) rest F2). cbn [list_ascii_of_string rev].
  now rewrite <- app_assoc.
Qed.
Lemma start_not_space : forall c, identifier_start c = true -> whitespace c = false.
Proof. intros [[] [] [] [] [] [] [] []]; vm_compute; congruence. Qed.

Lemma read_plain : forall name rest, plain name ->
  exists w, text w = name /\ tokenize (name ++ rest) Nothing = tokenize rest (In_word w).
Proof.
  intros name rest (c & s & -> & Hc & Hs). exists (rev (list_ascii_of_string s) ++ [c]). split.
  - unfold text. rewrite rev_app_distr, rev_involutive. cbn [rev app string_of_list_ascii].
    now rewrite string_of_list_ascii_of_string.
  - cbn [append tokenize]. unfold begin. rewrite (start_not_space c Hc), Hc.
    rewrite (read_word s [c] rest Hs). cbn [app].
    destruct (tokenize rest _); reflexivity.
Qed.

Definition unquoted (names : list string) : list (string * bool) := map (fun n => (n, false)) names.

Lemma read_names : forall names, names <> [] -> Forall plain names ->
  tokenize (join ", " names) Nothing = Ok (listing (unquoted names)).
Proof.
  induction names as [|n names IH]; intros N F; [contradiction|].
  inversion F as [|? ? F1 F2]; subst. destruct names as [|m names].
  - cbn [join]. replace n with (n ++ EmptyString)%string at 1.
    + destruct (read_plain n EmptyString F1) as (w & <- & ->). reflexivity.
    + clear. induction n as [|c n IH]; [reflexivity|]. cbn [append]. now rewrite IH.
  - rewrite join_cons by discriminate.
    destruct (read_plain n (", " ++ join ", " (m :: names))%string F1) as (w & <- & ->).
    cbn [append tokenize]. change (identifier_part ",") with false. cbn iota.
    change (begin ",") with ([Comma], Nothing). change (begin " ") with (@nil token, Nothing). cbn iota.
    rewrite (IH ltac:(discriminate) F2). cbn [bind app]. unfold unquoted. cbn [map].
    now rewrite (listing_cons (text w, false)) by discriminate.
Qed.

Lemma plain_char : forall c n, plain n -> identifier_part c = false -> ~ has_char c n.
Proof.
  intros c n (d & s & -> & Hd & Hs) Hc H. cbn in H. destruct H as [->|H].
  - unfold identifier_part in Hc. rewrite Hd in Hc. discriminate.
  - rewrite Forall_forall in Hs. specialize (Hs c H). congruence.
Qed.
Lemma parts_single : forall names, parts_listing (map (fun n => [n]) names) = listing names.
Proof.
  induction names as [|n names IH]; [reflexivity|]. destruct names as [|m names].
  - now destruct n.
  - rewrite listing_cons by discriminate. cbn [map] in *. rewrite parts_listing_cons by discriminate.
    rewrite IH. now destruct n.
Qed.
Lemma unquoted_fst : forall names, map fst (unquoted names) = names.
Proof. intros names. unfold unquoted. rewrite map_map. apply map_id. Qed.

Lemma drop_tokens : forall k t names s, keyword "DROP" k -> keyword "TABLE" t -> names <> [] ->
  stops s -> parse_tokens (k :: t :: listing names ++ s) = Ok (Drop_table (map fst names)).
Proof.
  intros k t names s K T N S. apply accepted_drop. exists (map (fun n => [n]) names). split.
  - exists k, t, s. rewrite parts_single. split; [exact K|]. split; [exact T|].
    split; [now destruct names|]. split; [|auto]. apply Forall_map, Forall_forall. discriminate.
  - rewrite map_map. cbn [map fold_left append]. reflexivity.
Qed.

Lemma read_keyword : forall k rest ts, plain k -> tokenize rest Nothing = Ok ts ->
  tokenize (k ++ String " " rest) Nothing = Ok (Word k false :: ts).
Proof.
  intros k rest ts K E. destruct (read_plain k (String " " rest) K) as (w & <- & ->).
  cbn [tokenize]. change (identifier_part " ") with false.
  change (begin " ") with (@nil token, Nothing). cbn iota. rewrite E. reflexivity.
Qed.
Lemma plain_bool : forall c s, identifier_start c = true ->
  forallb identifier_part (list_ascii_of_string s) = true -> plain (String c s).
Proof.
  intros c s H F. exists c, s. split; [reflexivity|]. split; [exact H|].
  rewrite forallb_forall in F. now apply Forall_forall.
Qed.

Lemma drop_text : forall names, names <> [] -> Forall plain names ->
  parse_sql ("DROP TABLE " ++ join ", " names) = Ok (Drop_table names).
Proof.
  intros names N F. unfold parse_sql.
  change ("DROP TABLE " ++ join ", " names)%string
    with ("DROP" ++ String " " ("TABLE" ++ String " " (join ", " names)))%string.
  rewrite (read_keyword "DROP" _ (Word "TABLE" false :: listing (unquoted names))).
  - cbn [bind]. rewrite <- (app_nil_r (listing _)).
    replace (Drop_table names) with (Drop_table (map fst (unquoted names))) by now rewrite unquoted_fst.
    apply drop_tokens.
    + now exists "DROP"%string.
    + now exists "TABLE"%string.
    + now destruct names.
    + constructor.
  - now apply plain_bool.
  - apply read_keyword; [now apply plain_bool|]. now apply read_names.
Qed.

Lemma unquoted_not_first : forall k names, (forall n l, names = n :: l -> map_string to_upper n <> k) ->
  not_first k (unquoted names).
Proof.
  intros k [|n l] H; [exact I|]. cbn. intros (v & E & Hk). injection E as ->. now apply (H v l).
Qed.

Lemma truncate_text : forall names, names <> [] -> Forall plain names ->
  (forall n l, names = n :: l -> map_string to_upper n <> "CLUSTER"%string) ->
  parse_sql ("TRUNCATE " ++ join ", " names) = Ok (Truncate_table names false).
Proof.
  intros names N F H. unfold parse_sql.
  change ("TRUNCATE " ++ join ", " names)%string with ("TRUNCATE" ++ String " " (join ", " names))%string.
  rewrite (read_keyword "TRUNCATE" _ (listing (unquoted names))).
  - cbn [bind]. apply accepted_truncate. exists (unquoted names). split; [|now rewrite unquoted_fst].
    exists (Word "TRUNCATE" false), [], []. split; [now exists "TRUNCATE"%string|]. split; [reflexivity|].
    split; [now destruct names|]. split; [constructor|]. split; [|now rewrite app_nil_r].
    intros _. now apply unquoted_not_first.
  - now apply plain_bool.
  - now apply read_names.
Qed.

Lemma vacuum_text : forall names, names <> [] -> Forall plain names ->
  (forall n l, names = n :: l -> map_string to_upper n <> "CLUSTER"%string
                                 /\ map_string to_upper n <> "RETAIN"%string) ->
  parse_sql ("VACUUM " ++ join ", " names) = Ok (Vacuum names None false).
Proof.
  intros names N F H. unfold parse_sql.
  change ("VACUUM " ++ join ", " names)%string with ("VACUUM" ++ String " " (join ", " names))%string.
  rewrite (read_keyword "VACUUM" _ (listing (unquoted names))).
  - cbn [bind]. apply accepted_vacuum. exists (unquoted names). split.
    + exists (Word "VACUUM" false), [], [], []. split; [now exists "VACUUM"%string|].
      split; [reflexivity|]. split; [reflexivity|]. split; [constructor|].
      split; [intros _; apply unquoted_not_first; intros n l E; now apply (H n l)|].
      split; [apply unquoted_not_first; intros n l E; now apply (H n l)|]. now rewrite app_nil_r.
    + rewrite unquoted_fst. symmetry. apply split_terminator_join.
      * eapply Forall_impl; [|exact F]. intros n Hn. now apply plain_char.
      * intros _. destruct (exists_last N) as (l & n & ->). rewrite last_last.
        apply Forall_app in F. destruct F as (_ & F). inversion F as [|? ? (c & s & -> & _)]. discriminate.
  - now apply plain_bool.
  - now apply read_names.
Qed.
