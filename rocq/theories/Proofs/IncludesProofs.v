(** Proofs about queries that include other nodes. *)
From Coq Require Import Arith Bool Ascii String List Permutation Lia.
From Verif Require Import Model.Base Model.Includes Spec.IncludesSpec.
Import ListNotations.
Open Scope nat_scope.
Open Scope list_scope.

(** * Parsing *)

Lemma is_white_iff : forall c,
  is_white c = true <-> (c = " " \/ c = "009" \/ c = "010" \/ c = "013")%char.
Proof.
  intro c. unfold is_white. rewrite !orb_true_iff, !Ascii.eqb_eq. tauto.
Qed.

Lemma white_cons : forall c w, white (c :: w) <-> is_white c = true /\ white w.
Proof.
  intros. unfold white. rewrite Forall_cons_iff, <- is_white_iff. tauto.
Qed.

Lemma skip_white_app : forall w t, white w -> skip_white (w ++ t) = skip_white t.
Proof.
  induction w as [|c w IH]; intros t H; [reflexivity|].
  apply white_cons in H as [Hc Hw]. cbn. rewrite Hc. auto.
Qed.

Lemma skip_white_spec : forall t, exists w, white w /\ t = w ++ skip_white t.
Proof.
  induction t as [|c t IH].
  - exists []. split; [constructor|reflexivity].
  - cbn. destruct (is_white c) eqn:E.
    + destruct IH as (w & Hw & Ht). exists (c :: w). split; [now apply white_cons|].
      cbn. now rewrite <- Ht.
    + exists []. split; [constructor|reflexivity].
Qed.

Lemma skip_white_stop : forall c t, is_white c = false -> skip_white (c :: t) = c :: t.
Proof. intros c t H. cbn. now rewrite H. Qed.

(** Letters in any case. *)
Definition letter (u l : ascii) : Prop := forall c, to_upper c = u <-> c = u \/ c = l.

Lemma letters : letter "I" "i" /\ letter "N" "n" /\ letter "C" "c" /\ letter "L" "l"
  /\ letter "U" "u" /\ letter "D" "d" /\ letter "E" "e".
Proof.
  repeat split; intro H;
    try (destruct H as [-> | ->]; reflexivity);
    destruct c as [[] [] [] [] [] [] [] []]; vm_compute in H;
    first [discriminate H | left; reflexivity | right; reflexivity].
Qed.

Lemma keyword_app : forall k word t, Forall2 (fun d c => to_upper d = c) word k ->
  keyword k (word ++ t) = Ok t.
Proof.
  intros k word t H. induction H as [|d c word k E H IH]; [destruct t; reflexivity|].
  cbn. rewrite E, Ascii.eqb_refl. exact IH.
Qed.

Lemma keyword_ok : forall k t rest, keyword k t = Ok rest ->
  exists word, Forall2 (fun d c => to_upper d = c) word k /\ t = word ++ rest.
Proof.
  induction k as [|c k IH]; intros t rest H.
  - assert (t = rest) by (destruct t; cbn in H; congruence). subst.
    exists []. split; [constructor|reflexivity].
  - destruct t as [|d t]; [discriminate|]. cbn in H.
    destruct (Ascii.eqb (to_upper d) c) eqn:E; [|discriminate].
    apply Ascii.eqb_eq in E. apply IH in H as (word & Hw & ->).
    exists (d :: word). split; [now constructor|reflexivity].
Qed.

Lemma is_include_iff : forall word,
  is_include word <-> Forall2 (fun d c => to_upper d = c) word INCLUDE.
Proof.
  intro word. destruct letters as (LI & LN & LC & LL & LU & LD & LE).
  unfold is_include. change INCLUDE with ["I"; "N"; "C"; "L"; "U"; "D"; "E"]%char.
  split; intro H;
    repeat match goal with
    | H : Forall2 _ _ (_ :: _) |- _ => inversion H; subst; clear H
    | H : Forall2 _ _ [] |- _ => inversion H; subst; clear H
    end; repeat (apply Forall2_cons || apply Forall2_nil); cbn [fst snd] in *;
    first [apply LI | apply LN | apply LC | apply LL | apply LU | apply LD | apply LE]; assumption.
Qed.

Lemma literal_app : forall a rest, (forall t, rest <> quote :: t) ->
  literal (escape a ++ quote :: rest) = Ok (a, rest).
Proof.
  induction a as [|c a IH]; intros rest H.
  - cbn. destruct rest as [|d rest]; [reflexivity|].
    destruct (Ascii.eqb d quote) eqn:E; [|reflexivity].
    apply Ascii.eqb_eq in E. subst d. now elim (H rest).
  - cbn. destruct (Ascii.eqb c quote) eqn:E.
    + apply Ascii.eqb_eq in E. subst c. cbn. now rewrite (IH rest H).
    + cbn [app literal]. rewrite E. rewrite (IH rest H). reflexivity.
Qed.

Lemma literal_ok_aux : forall n t a rest, length t <= n -> literal t = Ok (a, rest) ->
  t = escape a ++ quote :: rest /\ forall u, rest <> quote :: u.
Proof.
  induction n as [|n IH]; intros t a rest Hn H.
  - destruct t; [discriminate|cbn in Hn; lia].
  - destruct t as [|c t]; [discriminate|]. cbn [length] in Hn. cbn [literal] in H.
    destruct (Ascii.eqb c quote) eqn:E.
    + apply Ascii.eqb_eq in E. subst c. destruct t as [|d t].
      * injection H as <- <-. split; [reflexivity|discriminate].
      * destruct (Ascii.eqb d quote) eqn:E.
        -- apply Ascii.eqb_eq in E. subst d.
           destruct (literal t) as [[v r]| |] eqn:L; try discriminate.
           cbn in H. injection H as <- <-.
           apply IH in L as [-> Hq]; [|cbn [length] in Hn; lia].
           split; [reflexivity|exact Hq].
        -- injection H as <- <-. split; [reflexivity|].
           intros u Hu. injection Hu as -> _. now rewrite Ascii.eqb_refl in E.
    + destruct (literal t) as [[v r]| |] eqn:L; try discriminate.
      cbn in H. injection H as <- <-. apply IH in L as [-> Hq]; [|lia].
      cbn [escape]. rewrite E. split; [reflexivity|exact Hq].
Qed.

Lemma literal_ok : forall t a rest, literal t = Ok (a, rest) ->
  t = escape a ++ quote :: rest /\ forall u, rest <> quote :: u.
Proof. intros t a rest. now apply (literal_ok_aux (length t)). Qed.

Lemma follows_skip : forall query, follows_addresses query ->
  forall t, skip_white query <> comma :: t.
Proof.
  intros query [_ F] t E. destruct (skip_white_spec query) as (w & Hw & Q).
  rewrite E in Q. exact (F w t Hw Q).
Qed.

Lemma parse_addresses_complete : forall addresses l query fuel,
  address_list addresses l -> follows_addresses query -> length l <= fuel ->
  parse_addresses fuel (l ++ query) = Ok (addresses, query).
Proof.
  intros addresses l query fuel A F. revert fuel.
  induction A as [w a Hw | w a w' addresses t Hw Hw' A IH]; intros fuel L.
  - destruct fuel as [|fuel].
    { rewrite app_length in L. unfold quoted in L. cbn in L. lia. }
    cbn [parse_addresses]. rewrite <- app_assoc, skip_white_app by assumption.
    unfold quoted. cbn [app]. rewrite skip_white_stop by reflexivity.
    rewrite Ascii.eqb_refl. rewrite <- app_assoc. cbn [app].
    rewrite literal_app by apply F. cbn [bind].
    pose proof (follows_skip query F) as S. destruct (skip_white query) as [|d more]; [reflexivity|].
    destruct (Ascii.eqb d comma) eqn:E; [|reflexivity].
    apply Ascii.eqb_eq in E. subst d. now elim (S more).
  - destruct fuel as [|fuel].
    { rewrite app_length in L. unfold quoted in L. cbn in L. lia. }
    cbn [parse_addresses]. rewrite <- !app_assoc, skip_white_app by assumption.
    unfold quoted. cbn [app]. rewrite skip_white_stop by reflexivity.
    rewrite Ascii.eqb_refl. rewrite <- !app_assoc. cbn [app].
    rewrite literal_app.
    2: { intros u E. destruct w' as [|c w']; cbn in E; [discriminate|].
         apply white_cons in Hw' as [Hc _]. injection E as -> _. discriminate. }
    cbn [bind]. rewrite skip_white_app by assumption. rewrite skip_white_stop by reflexivity.
    rewrite Ascii.eqb_refl. rewrite IH; [reflexivity|].
    rewrite !app_length in L. unfold quoted in L. cbn [length] in L. lia.
Qed.

Lemma parse_addresses_sound : forall fuel t addresses query,
  parse_addresses fuel t = Ok (addresses, query) ->
  exists l, address_list addresses l /\ follows_addresses query /\ t = l ++ query.
Proof.
  induction fuel as [|fuel IH]; intros t addresses query H; [discriminate|].
  cbn [parse_addresses] in H. destruct (skip_white_spec t) as (w & Hw & T).
  destruct (skip_white t) as [|c t']; [discriminate|].
  destruct (Ascii.eqb c quote) eqn:E; [|discriminate]. apply Ascii.eqb_eq in E. subst c.
  destruct (literal t') as [[a rest]| |] eqn:L; try discriminate. cbn [bind] in H.
  apply literal_ok in L as [-> Q]. destruct (skip_white_spec rest) as (w' & Hw' & R).
  assert (One : follows_addresses rest ->
    exists l, address_list [a] l /\ follows_addresses rest /\ t = l ++ rest).
  { intro F. exists (w ++ quoted a). split; [now constructor|]. split; [exact F|].
    rewrite T. unfold quoted. rewrite <- app_assoc. cbn. now rewrite <- app_assoc. }
  assert (Stop : (forall u, skip_white rest <> comma :: u) -> follows_addresses rest).
  { intro S. split; [exact Q|]. intros v u Hv ->.
    rewrite skip_white_app in S by assumption. now elim (S u). }
  destruct (skip_white rest) as [|d more].
  - injection H as <- <-. apply One, Stop. discriminate.
  - destruct (Ascii.eqb d comma) eqn:E.
    + apply Ascii.eqb_eq in E. subst d.
      destruct (parse_addresses fuel more) as [[addrs q]| |] eqn:P; try discriminate.
      cbn in H. injection H as <- <-. apply IH in P as (l & A & F & ->).
      exists (w ++ quoted a ++ w' ++ comma :: l). split; [now constructor|]. split; [exact F|].
      rewrite T, R. unfold quoted. repeat (rewrite <- app_assoc; cbn [app]). reflexivity.
    + injection H as <- <-. apply One, Stop. intros u Hu. injection Hu as -> _.
      now rewrite Ascii.eqb_refl in E.
Qed.

Theorem parse_include_iff : forall sql addresses query,
  parse_include sql = Ok (addresses, query) <-> written addresses query sql.
Proof.
  intros sql addresses query. unfold parse_include. split.
  - intro H. destruct (keyword INCLUDE (skip_white sql)) as [t| |] eqn:K; try discriminate.
    cbn [bind] in H. destruct (skip_white_spec sql) as (w & Hw & S).
    apply keyword_ok in K as (word & Hk & K). apply parse_addresses_sound in H as (l & A & F & ->).
    split; [exact F|]. exists w, word, l. split; [exact Hw|]. split; [now apply is_include_iff|].
    split; [exact A|]. now rewrite S, K.
  - intros (F & w & word & l & Hw & I & A & ->). rewrite skip_white_app by assumption.
    apply is_include_iff in I. pose proof I as I'.
    inversion I' as [|d c word' k Hd Hrest Ew Ek]; subst.
    assert (is_white d = false) as D.
    { destruct (is_white d) eqn:E; [|reflexivity]. apply is_white_iff in E.
      destruct E as [-> | [-> | [-> | ->]]]; discriminate. }
    cbn [app]. rewrite skip_white_stop by assumption.
    change (d :: word' ++ l ++ query) with ((d :: word') ++ (l ++ query)).
    rewrite (keyword_app _ _ _ I). cbn [bind]. apply parse_addresses_complete; auto.
    rewrite app_length. lia.
Qed.

(** * Finding the last address *)

Lemma starts_with_iff : forall a t, starts_with a t = true <-> exists after, t = a ++ after.
Proof.
  induction a as [|c a IH]; intro t.
  - split; [intros _; now exists t|]. intros _. destruct t; reflexivity.
  - destruct t as [|d t]; cbn.
    + split; [discriminate|]. intros [after H]. discriminate.
    + rewrite andb_true_iff, Ascii.eqb_eq, IH. split.
      * intros [-> [after ->]]. now exists after.
      * intros [after H]. injection H as -> ->. split; [reflexivity|now exists after].
Qed.

Lemma occurs_cons : forall a c t, occurs a (c :: t) <-> starts_with a (c :: t) = true \/ occurs a t.
Proof.
  intros a c t. rewrite starts_with_iff. split.
  - intros (before & after & H). destruct before as [|d before].
    + left. now exists after.
    + right. injection H as -> ->. now exists before, after.
  - intros [[after H] | (before & after & ->)].
    + exists [], after. exact H.
    + now exists (c :: before), after.
Qed.

Lemma rfind_none : forall a t, rfind a t = None <-> ~ occurs a t.
Proof.
  intros a t. induction t as [|c t IH].
  - cbn [rfind]. split.
    + intros H (before & after & E). symmetry in E. apply app_eq_nil in E as [_ E].
      apply app_eq_nil in E as [-> _]. discriminate.
    + intro H. destruct a as [|c a]; [|reflexivity]. elim H. now exists [], [].
  - cbn [rfind]. rewrite occurs_cons. destruct (rfind a t) as [i|].
    + split; [discriminate|]. intro H. assert (~ occurs a t) as N by tauto.
      apply IH in N. discriminate.
    + assert (~ occurs a t) by now apply IH. destruct (starts_with a (c :: t)).
      * split; [discriminate|]. intro N. elim N. now left.
      * split; [|reflexivity]. intros _ [N|N]; [discriminate|contradiction].
Qed.

Lemma rfind_some : forall a t i, rfind a t = Some i ->
  exists before after, t = before ++ a ++ after /\ length before = i
    /\ last_occurrence a t after.
Proof.
  intros a t. induction t as [|c t IH]; intros i H.
  - destruct a as [|c a]; [|discriminate]. injection H as <-. exists [], [].
    repeat split; [now exists []|cbn; lia].
  - cbn [rfind] in H. destruct (rfind a t) as [j|] eqn:R.
    + injection H as <-. destruct (IH j eq_refl) as (before & after & E & L & (_ & M)).
      exists (c :: before), after. rewrite E. cbn [length]. repeat split; [now rewrite L| |].
      * now exists (c :: before).
      * intros before' after' H. destruct before' as [|d before'].
        -- cbn in H. assert (length (c :: before ++ a ++ after) = length (a ++ after'))
             by (rewrite H; reflexivity).
           cbn in H0. rewrite !app_length in H0. lia.
        -- injection H as _ H. apply (M before'). now rewrite E.
    + destruct (starts_with a (c :: t)) eqn:S; [|discriminate]. injection H as <-.
      apply starts_with_iff in S as [after S]. exists [], after. split; [exact S|].
      split; [reflexivity|]. split; [now exists []|].
      intros before' after' H. destruct before' as [|d before'].
      * cbn in H. rewrite S in H. apply app_inv_head in H. now subst.
      * exfalso. apply rfind_none in R. apply R. injection H as _ ->. now exists before', after'.
Qed.

Lemma last_occurrence_rfind : forall a t after, last_occurrence a t after ->
  exists before, t = before ++ a ++ after /\ rfind a t = Some (length before).
Proof.
  intros a t after [[before E] M]. exists before. split; [exact E|].
  destruct (rfind a t) as [i|] eqn:R.
  - apply rfind_some in R as (before' & after' & E' & <- & _ & M').
    pose proof (M _ _ E') as A. pose proof (M' _ _ E) as B.
    assert (length (before ++ a ++ after) = length (before' ++ a ++ after'))
      by (rewrite <- E, <- E'; reflexivity).
    rewrite !app_length in H. f_equal. lia.
  - apply rfind_none in R. elim R. now exists before, after.
Qed.

Lemma occurs_last : forall a t, occurs a t -> exists after, last_occurrence a t after.
Proof.
  intros a t O. destruct (rfind a t) as [i|] eqn:R.
  - apply rfind_some in R as (before & after & _ & _ & L). now exists after.
  - now apply rfind_none in R.
Qed.

Lemma continues_iff : forall c, continues c = true <-> 128 <= nat_of_ascii c < 192.
Proof.
  intro c. unfold continues. rewrite andb_true_iff, Nat.leb_le, Nat.ltb_lt. tauto.
Qed.

(** What is sent, by what follows the last occurrence. *)
Lemma slice_after : forall before a after,
  slice_from (before ++ a ++ after) (length before + length a + 1)
  = match after with
    | [] => Panic
    | _ :: t => match t with
                | d :: _ => if continues d then Panic else Ok t
                | [] => Ok t
                end
    end.
Proof.
  intros before a after. unfold slice_from. rewrite !app_length.
  assert (K : skipn (length before + length a + 1) (before ++ a ++ after) = skipn 1 after).
  { rewrite app_assoc, <- app_length, skipn_app.
    rewrite skipn_all2 by lia. cbn [app]. f_equal. lia. }
  destruct after as [|c after].
  - match goal with |- context [?x <? ?y] => destruct (Nat.ltb_spec x y) as [|C] end;
      [reflexivity|cbn in C; lia].
  - rewrite K. cbn [length skipn].
    match goal with |- context [?x <? ?y] => destruct (Nat.ltb_spec x y) as [|C] end; [lia|].
    destruct after as [|d after]; reflexivity.
Qed.

(** The statement ends with the last address between quotes, and the query. *)
Lemma address_list_last : forall addresses l, address_list addresses l ->
  exists p last rest, rev addresses = last :: rest /\ l = p ++ quoted last.
Proof.
  intros addresses l A. induction A as [w a Hw | w a w' addresses t Hw Hw' A IH].
  - now exists w, a, [].
  - destruct IH as (p & last & rest & R & ->).
    exists (w ++ quoted a ++ w' ++ comma :: p), last, (rest ++ [a]). split.
    + cbn. now rewrite R.
    + rewrite <- !app_assoc. cbn [app]. reflexivity.
Qed.

Lemma escape_id : forall a, ~ In quote a -> escape a = a.
Proof.
  induction a as [|c a IH]; intro H; [reflexivity|]. cbn.
  destruct (Ascii.eqb c quote) eqn:E.
  - apply Ascii.eqb_eq in E. elim H. now left.
  - f_equal. apply IH. intro I. apply H. now right.
Qed.

Lemma written_last : forall addresses query sql, written addresses query sql ->
  exists p last rest, rev addresses = last :: rest
    /\ sql = p ++ quote :: escape last ++ quote :: query.
Proof.
  intros addresses query sql (_ & w & word & l & _ & _ & A & ->).
  apply address_list_last in A as (p & last & rest & R & ->).
  exists (w ++ word ++ p), last, rest. split; [exact R|]. unfold quoted.
  rewrite <- !app_assoc. cbn [app]. now rewrite <- !app_assoc.
Qed.

Lemma rev_last : forall (addresses : list text) a rest d,
  rev addresses = a :: rest -> last addresses d = a.
Proof.
  intros addresses a rest d H. rewrite <- (rev_involutive addresses), H. cbn.
  apply last_last.
Qed.

Lemma split_app : forall A (x y u v : list A), x ++ u = y ++ v -> length u <= length v ->
  exists t, v = t ++ u /\ x = y ++ t.
Proof.
  intros A x y u v. revert x. induction y as [|c y IH]; intros x E L.
  - exists x. now split.
  - destruct x as [|d x].
    + cbn in E. subst u. cbn in L. rewrite app_length in L. lia.
    + injection E as -> E. destruct (IH x E L) as (t & -> & ->). now exists t.
Qed.

(** The last occurrence of an address in the statement is the one between quotes, or in the query. *)
Lemma last_in_statement : forall p a query, ~ In quote a -> ~ occurs a query ->
  last_occurrence a (p ++ quote :: a ++ quote :: query) (quote :: query).
Proof.
  intros p a query Q N. split.
  - exists (p ++ [quote]). now rewrite <- app_assoc.
  - intros before' after' H. destruct (le_lt_dec (length (quote :: query)) (length after'))
      as [|L]; [assumption|exfalso].
    assert (E : (before' ++ a) ++ after' = (p ++ quote :: a) ++ quote :: query).
    { rewrite <- !app_assoc. cbn. now rewrite <- H. }
    destruct (split_app _ _ _ _ _ E (Nat.lt_le_incl _ _ L)) as (u & U & B).
    destruct u as [|q u]; [cbn in U; rewrite <- U in L; cbn in L; lia|].
    cbn in U. injection U as <- U.
    (* Either the occurrence contains the closing quote, or it is in the query. *)
    assert (E' : before' ++ a = (p ++ quote :: a ++ [quote]) ++ u).
    { rewrite B. repeat (rewrite <- app_assoc; cbn [app]). reflexivity. }
    destruct (le_lt_dec (length a) (length u)) as [Ll|Ll].
    + destruct (split_app _ _ _ _ _ E' Ll) as (t & Hu & _).
      apply N. rewrite U, Hu, <- app_assoc. now exists t, after'.
    + symmetry in B. change (quote :: u) with ([quote] ++ u) in B.
      destruct (split_app _ _ _ _ _ B) as (t & Ha & _); [cbn; lia|].
      apply Q. rewrite Ha. apply in_or_app. right. now left.
Qed.

Lemma last_in_query : forall p a query after, last_occurrence a query after ->
  last_occurrence a (p ++ quote :: a ++ quote :: query) after.
Proof.
  intros p a query after [[before E] M]. split.
  - exists (p ++ quote :: a ++ quote :: before). rewrite E.
    repeat (rewrite <- app_assoc; cbn [app]). reflexivity.
  - intros before' after' H. destruct (le_lt_dec (length after) (length after')) as [|L];
      [assumption|exfalso].
    assert (P : before' ++ a ++ after' = (p ++ quote :: a ++ [quote]) ++ query).
    { rewrite <- H. repeat (rewrite <- app_assoc; cbn [app]). reflexivity. }
    destruct (split_app _ _ _ _ _ P) as (t & K & _).
    { rewrite E, !app_length. lia. }
    specialize (M _ _ K). lia.
Qed.

(** What is sent, in all cases where the last address has no quotes. *)
Lemma sent_cases : forall addresses query sql a,
  written addresses query sql -> last addresses [] = a -> ~ In quote a ->
  (~ occurs a query /\ sql_select sql addresses
     = match query with d :: _ => if continues d then Panic else Ok query | [] => Ok query end)
  \/ exists after, last_occurrence a query after
     /\ sql_select sql addresses
        = match after with
          | [] => Panic
          | _ :: t => match t with d :: _ => if continues d then Panic else Ok t | [] => Ok t end
          end.
Proof.
  intros addresses query sql a W La Q. apply written_last in W as (p & b & rest & R & ->).
  pose proof (rev_last _ _ _ [] R) as Lb. rewrite La in Lb. subst b.
  unfold sql_select. rewrite R. rewrite escape_id by assumption.
  destruct (rfind a query) as [i|] eqn:F.
  - right. apply rfind_some in F as (_ & after & _ & _ & L). exists after. split; [exact L|].
    apply (last_in_query p), last_occurrence_rfind in L as (before & -> & ->).
    apply slice_after.
  - left. apply rfind_none in F. split; [exact F|].
    apply (last_in_statement p _ _ Q), last_occurrence_rfind in F as (before & -> & ->).
    exact (slice_after before a (quote :: query)).
Qed.

Lemma proper_text : forall t, starts_character t ->
  match t with d :: _ => continues d = false | [] => True end.
Proof.
  intros [|d t] H; [exact I|]. destruct (continues d) eqn:E; [|reflexivity].
  apply continues_iff in E. now elim (H d t eq_refl).
Qed.

Theorem sent_iff : forall addresses query sql,
  written addresses query sql -> ~ In quote (last addresses []) -> starts_character query ->
  (sql_select sql addresses = Ok query <-> ~ occurs (last addresses []) query).
Proof.
  intros addresses query sql W Q P. apply proper_text in P. split.
  - intros E O. destruct (sent_cases _ _ _ _ W eq_refl Q) as [[N _]|(after & L & S)];
      [contradiction|]. rewrite E in S. destruct L as [[before B] _].
    destruct after as [|c t]; [discriminate|].
    assert (query = t) as H.
    { destruct t as [|d t]; [now injection S|]. destruct (continues d); [discriminate|now injection S]. }
    apply (f_equal (@length ascii)) in B. rewrite H in B. rewrite !app_length in B. cbn in B. lia.
  - intro N. destruct (sent_cases _ _ _ _ W eq_refl Q) as [[_ S]|(after & L & _)].
    + rewrite S. destruct query as [|d t]; [reflexivity|]. cbn in P. now rewrite P.
    + elim N. destruct L as [[before B] _]. now exists before, after.
Qed.

Theorem abort_iff : forall addresses query sql,
  written addresses query sql -> ~ In quote (last addresses []) -> starts_character query ->
  (sql_select sql addresses = Panic <->
   exists after, last_occurrence (last addresses []) query after
     /\ (after = [] \/ within_character after)).
Proof.
  intros addresses query sql W Q P. apply proper_text in P.
  assert (Same : forall a t u u', last_occurrence a t u -> last_occurrence a t u' -> u = u').
  { intros a t u u' [[b E] M] [[b' E'] M']. pose proof (M _ _ E') as A. pose proof (M' _ _ E) as B.
    rewrite E in E'. rewrite !app_assoc in E'. apply split_app in E' as (v & -> & _); [|exact A].
    destruct v as [|c v]; [reflexivity|]. cbn in B. rewrite app_length in B. lia. }
  split.
  - intro E. destruct (sent_cases _ _ _ _ W eq_refl Q) as [[N S]|(after & L & S)].
    + rewrite E in S. destruct query as [|d t]; [discriminate|]. cbn in P. rewrite P in S.
      discriminate.
    + exists after. split; [exact L|]. rewrite E in S. destruct after as [|c t]; [now left|right].
      destruct t as [|d t]; [discriminate|]. exists c, d, t. split; [reflexivity|].
      apply continues_iff. destruct (continues d); [reflexivity|discriminate].
  - intros (after & L & C). destruct (sent_cases _ _ _ _ W eq_refl Q) as [[N _]|(after' & L' & S)].
    + elim N. destruct L as [[before B] _]. now exists before, after.
    + rewrite S. rewrite (Same _ _ _ _ L' L). destruct C as [-> | (c & d & t & -> & C)];
        [reflexivity|]. apply continues_iff in C. now rewrite C.
Qed.

(** * Results *)

Lemma at_addresses_ok : forall V (answer : text -> text -> outcome (result V)) select addresses rs,
  at_addresses answer select addresses = Ok rs
  <-> Forall2 (fun a r => answer a select = Ok r) addresses rs.
Proof.
  intros V answer select addresses. induction addresses as [|a addresses IH]; intro rs; cbn.
  - split; [intros [= <-]; constructor|]. intro H. now inversion H.
  - split.
    + destruct (answer a select) as [r| |] eqn:A; try discriminate. cbn.
      destruct (at_addresses answer select addresses) as [rs'| |]; try discriminate. cbn.
      intros [= <-]. constructor; [exact A|]. now apply IH.
    + intro H. inversion H as [|? r ? rs' A Rest]; subst. rewrite A. cbn.
      apply IH in Rest. now rewrite Rest.
Qed.

Lemma merged_permutation : forall A (streams : list (list A)) items, merged streams items ->
  Permutation (concat streams) items.
Proof.
  intros A streams items M. induction M as [streams H | before x s after items M IH].
  - replace (concat streams) with (@nil A); [constructor|]. symmetry.
    induction H as [|s streams -> H IH]; [reflexivity|exact IH].
  - rewrite concat_app in *. cbn [concat] in *. cbn [app].
    rewrite <- Permutation_middle. now constructor.
Qed.

Lemma send_complete : forall V (items : list (outcome (list (list V)))) rows,
  send items = (rows, true) <-> exists batches, items = map Ok batches /\ rows = concat batches.
Proof.
  intros V items. induction items as [|i items IH]; intro rows; cbn.
  - split; [intros [= <-]; now exists []|]. intros (batches & E & ->).
    destruct batches; [reflexivity|discriminate].
  - split.
    + destruct i as [b| |]; try discriminate. destruct (send items) as [r ok].
      intros [= <- ->]. destruct (proj1 (IH r) eq_refl) as (batches & -> & ->).
      now exists (b :: batches).
    + intros (batches & E & ->). destruct batches as [|b batches]; [discriminate|].
      injection E as -> ->. rewrite (proj2 (IH (concat batches))); [reflexivity|].
      now exists batches.
Qed.

Lemma map_ok_split : forall V (streams : list (list (outcome (list (list V))))) batches,
  Permutation (concat streams) (map Ok batches) ->
  exists bss, streams = map (map Ok) bss.
Proof.
  intros V streams batches P.
  assert (All : Forall (fun i => exists b, i = Ok b) (concat streams)).
  { apply Forall_forall. intros i I. apply (Permutation_in _ P) in I. apply in_map_iff in I.
    destruct I as (b & <- & _). now exists b. }
  clear P. induction streams as [|s streams IH]; [now exists []|].
  cbn in All. apply Forall_app in All as [S R]. destruct (IH R) as (bss & ->).
  assert (exists bs, s = map Ok bs) as [bs ->].
  { clear - S. induction S as [|i s (b & ->) S (bs & ->)]; [now exists []|]. now exists (b :: bs). }
  now exists (bs :: bss).
Qed.

Lemma concat_map_ok : forall V (bss : list (list (list (list V)))),
  concat (map (map Ok) bss) = map Ok (concat bss).
Proof.
  intros V bss. induction bss as [|bs bss IH]; [reflexivity|]. cbn.
  now rewrite IH, map_app.
Qed.

Lemma permutation_ok : forall V (bs bs' : list (list (list V))),
  Permutation (map Ok bs) (map Ok bs') -> Permutation bs bs'.
Proof.
  intros V bs bs' P.
  set (get := fun i : outcome (list (list V)) => match i with Ok b => b | _ => [] end).
  apply (Permutation_map get) in P. rewrite !map_map in P. cbn in P. now rewrite !map_id in P.
Qed.

Lemma permutation_concat : forall A (bs bs' : list (list A)),
  Permutation bs bs' -> Permutation (concat bs) (concat bs').
Proof.
  intros A bs bs' P. induction P; cbn.
  - constructor.
  - now apply Permutation_app_head.
  - rewrite !app_assoc. apply Permutation_app_tail, Permutation_app_comm.
  - now transitivity (concat l').
Qed.

Lemma include_query_ok : forall V (local : text -> outcome (result V)) answer sql columns streams,
  include_query local answer sql = Ok (columns, streams) <->
  exists addresses query l select rs, written addresses query sql /\ local query = Ok l
    /\ sql_select sql addresses = Ok select
    /\ Forall2 (fun a r => answer a select = Ok r) addresses rs
    /\ columns = Includes.columns l /\ streams = stream l :: map stream rs.
Proof.
  intros V local answer sql columns streams. unfold include_query. split.
  - intro H. destruct (parse_include sql) as [[addresses query]| |] eqn:P; try discriminate.
    cbn in H. destruct (local query) as [l| |] eqn:L; try discriminate. cbn in H.
    destruct (sql_select sql addresses) as [select| |] eqn:S; try discriminate. cbn in H.
    destruct (at_addresses answer select addresses) as [rs| |] eqn:A; try discriminate.
    cbn in H. injection H as <- <-. apply parse_include_iff in P. apply at_addresses_ok in A.
    exists addresses, query, l, select, rs. auto 10.
  - intros (addresses & query & l & select & rs & W & L & S & A & -> & ->).
    apply parse_include_iff in W. apply at_addresses_ok in A. rewrite W. cbn. rewrite L. cbn.
    rewrite S. cbn. now rewrite A.
Qed.

(** The rows of all nodes. *)
Theorem response_rows : forall V (local : text -> outcome (result V)) answer sql addresses query
    columns rows,
  written addresses query sql -> ~ In quote (last addresses []) -> starts_character query ->
  ~ occurs (last addresses []) query ->
  responds local answer sql columns rows true ->
  exists l rs own others, local query = Ok l /\ columns = Includes.columns l /\ all_rows l own
    /\ Forall2 (fun a r => answer a query = Ok r) addresses rs /\ Forall2 all_rows rs others
    /\ Permutation rows (own ++ concat others).
Proof.
  intros V local answer sql addresses query columns rows W Q P N
    (streams & items & I & M & S).
  apply include_query_ok in I as (addresses' & query' & l & select & rs & W' & L & E & A & C & ->).
  assert (addresses' = addresses /\ query' = query) as [-> ->].
  { apply parse_include_iff in W, W'. rewrite W in W'. now injection W' as <- <-. }
  apply (sent_iff _ _ _ W Q P) in N. rewrite N in E. injection E as <-.
  apply send_complete in S as (batches & -> & ->). apply merged_permutation in M.
  destruct (map_ok_split _ _ _ M) as (bss & B). rewrite B, concat_map_ok in M.
  apply permutation_ok in M. destruct bss as [|bs bss]; [discriminate|].
  cbn [map] in B. injection B as Bl Br.
  exists l, rs, (concat bs), (map (@concat _) bss). split; [exact L|]. split; [exact C|].
  split; [now exists bs|]. split; [exact A|]. split.
  - clear - Br. revert bss Br. induction rs as [|r rs IH]; intros [|bs bss] B; try discriminate;
      constructor.
    + cbn in B. injection B as B _. now exists bs.
    + apply IH. cbn in B. now injection B.
  - symmetry. apply permutation_concat in M. cbn [concat] in M. rewrite concat_app in M.
    assert (CC : forall T (x : list (list (list T))), concat (concat x) = concat (map (@concat _) x)).
    { clear. intros T x. induction x as [|y x IH]; [reflexivity|]. cbn. now rewrite concat_app, IH. }
    now rewrite CC in M.
Qed.

(** A response exists if every node answers. *)
Lemma merged_exists : forall A (streams : list (list A)), merged streams (concat streams).
Proof.
  intros A streams. enough (forall done, Forall (fun s => s = []) done ->
    merged (done ++ streams) (concat streams)) by (apply (H []); constructor).
  induction streams as [|s streams IH]; intros done D.
  - rewrite app_nil_r. now constructor.
  - induction s as [|x s IHs].
    + cbn. replace (done ++ [] :: streams) with ((done ++ [[]]) ++ streams)
        by now rewrite <- app_assoc. apply IH. apply Forall_app. split; [assumption|now constructor].
    + cbn. constructor. exact IHs.
Qed.

(** An error of any node is reported. *)
Theorem errors_reported : forall V (local : text -> outcome (result V)) answer sql columns streams items s i,
  include_query local answer sql = Ok (columns, streams) -> merged streams items ->
  In s streams -> In i s -> (forall b, i <> Ok b) -> snd (send items) = false.
Proof.
  intros V local answer sql columns streams items s i _ M S I N.
  destruct (send items) as [rows [|]] eqn:E; [|reflexivity].
  apply send_complete in E as (batches & -> & _). apply merged_permutation in M.
  assert (In i (map Ok batches)) as H.
  { apply (Permutation_in _ M), in_concat. now exists s. }
  apply in_map_iff in H as (b & H & _). now elim (N b).
Qed.

Theorem response_named : forall V (local : text -> outcome (result V)) answer sql addresses query
    columns rows,
  written addresses query sql -> ~ In quote (last addresses []) -> starts_character query ->
  ~ occurs (last addresses []) query ->
  (forall a l r, local query = Ok l -> answer a query = Ok r ->
     Includes.columns r = Includes.columns l) ->
  responds local answer sql columns rows true ->
  exists l rs own others, local query = Ok l /\ all_rows l own
    /\ Forall2 (fun a r => answer a query = Ok r) addresses rs /\ Forall2 all_rows rs others
    /\ Permutation (named columns rows)
         (named (Includes.columns l) own
          ++ concat (map (fun p => named (Includes.columns (fst p)) (snd p)) (combine rs others))).
Proof.
  intros V local answer sql addresses query columns rows W Q P N Same R.
  destruct (response_rows _ _ _ _ _ _ _ _ W Q P N R)
    as (l & rs & own & others & L & -> & O & A & B & Perm).
  exists l, rs, own, others. split; [exact L|]. split; [exact O|]. split; [exact A|].
  split; [exact B|]. apply (Permutation_map (combine (Includes.columns l))) in Perm.
  rewrite map_app in Perm. eapply Permutation_trans; [exact Perm|].
  apply Permutation_app_head. apply Permutation_refl'. clear Perm R O.
  assert (Rec : forall addresses rs others, Forall2 (fun a r => answer a query = Ok r) addresses rs ->
    Forall2 all_rows rs others ->
    named (Includes.columns l) (concat others)
    = concat (map (fun p => named (Includes.columns (fst p)) (snd p)) (combine rs others))).
  { clear - Same L. intros addresses rs others A. revert others.
    induction A as [|a r addresses rs Ha A IH]; intros others B.
    - inversion B; subst. reflexivity.
    - inversion B as [|? o ? others' Ho Bs]; subst.
      transitivity (named (Includes.columns l) o ++ named (Includes.columns l) (concat others'));
        [apply map_app|].
      rewrite (IH _ Bs), <- (Same _ _ _ L Ha). reflexivity. }
  exact (Rec _ _ _ A B).
Qed.

(** Whether a response is complete. *)
Theorem response_ok : forall V (local : text -> outcome (result V)) answer sql addresses query
    columns rows ok,
  written addresses query sql -> ~ In quote (last addresses []) -> starts_character query ->
  ~ occurs (last addresses []) query ->
  responds local answer sql columns rows ok ->
  exists l rs, local query = Ok l /\ Forall2 (fun a r => answer a query = Ok r) addresses rs
    /\ (ok = true <-> Forall (fun r => exists own, all_rows r own) (l :: rs)).
Proof.
  intros V local answer sql addresses query columns rows ok W Q P N (streams & items & I & M & S).
  pose proof I as I0.
  apply include_query_ok in I as (addresses' & query' & l & select & rs & W' & L & E & A & _ & St).
  assert (addresses' = addresses /\ query' = query) as [-> ->].
  { apply parse_include_iff in W, W'. rewrite W in W'. now injection W' as <- <-. }
  apply (sent_iff _ _ _ W Q P) in N. rewrite N in E. injection E as <-.
  exists l, rs. split; [exact L|]. split; [exact A|].
  assert (St' : streams = map stream (l :: rs)) by now rewrite St. split.
  - intros ->. apply send_complete in S as (batches & -> & _). apply merged_permutation in M.
    destruct (map_ok_split _ _ _ M) as (bss & B). rewrite St' in B. clear - B.
    revert bss B. generalize (l :: rs). intro all. induction all as [|r all IH]; intros bss B;
      constructor.
    + destruct bss as [|bs bss]; [discriminate|]. injection B as B _. now exists (concat bs), bs.
    + destruct bss as [|bs bss]; [discriminate|]. injection B as _ B. now apply (IH bss).
  - intro F. destruct ok; [reflexivity|exfalso].
    assert (exists i, In i items /\ forall b, i <> Ok b) as (i & Ii & Bad).
    { clear - S. revert rows S. induction items as [|i items IH]; intros rows S; [discriminate|].
      cbn in S. destruct i as [b| |]; [|exists Err|exists Panic].
      - destruct (send items) as [r o]. injection S as <- ->.
        destruct (IH r eq_refl) as (i & I & B). exists i. split; [now right|exact B].
      - split; [now left|discriminate].
      - split; [now left|discriminate]. }
    apply merged_permutation in M. apply Permutation_sym in M. apply (Permutation_in _ M) in Ii.
    apply in_concat in Ii as (s & Is & Ii). rewrite St' in Is. apply in_map_iff in Is as (r & <- & Ir).
    rewrite Forall_forall in F. destruct (F r Ir) as (own & batches & B & _). rewrite B in Ii.
    apply in_map_iff in Ii as (b & E & _). now elim (Bad b).
Qed.

(** A statement is answered if every node answers. *)
Theorem response_exists : forall V (local : text -> outcome (result V)) answer sql addresses query l,
  written addresses query sql -> ~ In quote (last addresses []) -> starts_character query ->
  ~ occurs (last addresses []) query ->
  local query = Ok l -> (forall a, In a addresses -> exists r, answer a query = Ok r) ->
  exists rows ok, responds local answer sql (columns l) rows ok.
Proof.
  intros V local answer sql addresses query l W Q P N L A.
  assert (exists rs, Forall2 (fun a r => answer a query = Ok r) addresses rs) as [rs R].
  { clear - A. induction addresses as [|a addresses IH]; [exists []; constructor|].
    destruct (A a (or_introl eq_refl)) as [r Ra].
    destruct IH as [rs R]; [intros b B; apply A; now right|]. exists (r :: rs). now constructor. }
  set (streams := stream l :: map stream rs).
  exists (fst (send (concat streams))), (snd (send (concat streams))), streams, (concat streams).
  split; [|split; [apply merged_exists|apply surjective_pairing]].
  apply include_query_ok. exists addresses, query, l, query, rs.
  split; [exact W|]. split; [exact L|]. split; [now apply (sent_iff _ _ _ W Q P)|]. now split.
Qed.

(** When the server is aborted. *)
Theorem statement_aborts_iff : forall V (local : text -> outcome (result V)) answer sql addresses
    query l,
  written addresses query sql -> ~ In quote (last addresses []) -> starts_character query ->
  local query = Ok l -> (forall a q, answer a q <> Panic) ->
  (include_query local answer sql = Panic <->
   exists after, last_occurrence (last addresses []) query after
     /\ (after = [] \/ within_character after)).
Proof.
  intros V local answer sql addresses query l W Q P L A.
  rewrite <- (abort_iff _ _ _ W Q P). unfold include_query.
  rewrite (proj2 (parse_include_iff _ _ _) W). cbn. rewrite L. cbn.
  destruct (sql_select sql addresses) as [select| |]; cbn.
  - split; [|discriminate]. intro H. exfalso.
    assert (at_addresses answer select addresses <> Panic).
    { clear - A. induction addresses as [|a addresses IH]; cbn; [discriminate|].
      specialize (A a select). destruct (answer a select); cbn; [|discriminate|contradiction].
      destruct (at_addresses answer select addresses); cbn; [discriminate|discriminate|contradiction]. }
    destruct (at_addresses answer select addresses); cbn in H; [discriminate|discriminate|contradiction].
  - split; discriminate.
  - split; reflexivity.
Qed.
