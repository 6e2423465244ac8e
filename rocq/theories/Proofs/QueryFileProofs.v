(** Proofs about executing the queries in a file. *)
From Coq Require Import Arith Bool Ascii String List Lia.
From Verif Require Import Model.QueryFile Spec.QueryFileSpec.
Import ListNotations.
Open Scope nat_scope.
Open Scope list_scope.

(** * Lines *)

Lemma drop_return_no : forall l, (forall x, l <> x ++ [return_]) -> drop_return l = l.
Proof.
  intros l N. unfold drop_return. destruct (rev l) as [|c r] eqn:E; [reflexivity|].
  destruct (Ascii.eqb_spec c return_) as [->|_]; [|reflexivity]. exfalso.
  apply (N (rev r)). rewrite <- (rev_involutive l), E. reflexivity.
Qed.

Lemma drop_return_yes : forall l, drop_return (l ++ [return_]) = l.
Proof.
  intro l. unfold drop_return. rewrite rev_app_distr. cbn [rev app].
  rewrite Ascii.eqb_refl. apply rev_involutive.
Qed.

Lemma lines_from_line : forall l acc t, ~ In newline l ->
  lines_from acc (l ++ newline :: t) = drop_return (acc ++ l) :: lines t.
Proof.
  induction l as [|c l IH]; intros acc t N.
  - cbn [app lines_from]. rewrite Ascii.eqb_refl, app_nil_r. reflexivity.
  - cbn [app lines_from]. destruct (Ascii.eqb_spec c newline) as [->|_]; [now contradiction N; left|].
    rewrite IH by (intro I; apply N; now right). now rewrite <- app_assoc.
Qed.

Lemma lines_from_last : forall l acc, ~ In newline l -> acc ++ l <> [] -> lines_from acc l = [acc ++ l].
Proof.
  induction l as [|c l IH]; intros acc N E; cbn [lines_from].
  - rewrite app_nil_r in *. now destruct acc.
  - destruct (Ascii.eqb_spec c newline) as [->|_]; [now contradiction N; left|].
    rewrite IH; [now rewrite <- app_assoc|intro I; apply N; now right|now destruct acc].
Qed.

Lemma written_lines : forall ls t, written ls t -> lines t = ls.
Proof.
  intros ls t W. induction W as [|l E N|l ls t N R W IH|l ls t N W IH].
  - reflexivity.
  - now apply (lines_from_last l []).
  - unfold lines. rewrite lines_from_line by exact N. cbn [app]. now rewrite drop_return_no, IH.
  - unfold lines. replace (l ++ return_ :: newline :: t) with ((l ++ [return_]) ++ newline :: t)
      by now rewrite <- app_assoc.
    rewrite lines_from_line.
    + cbn [app]. now rewrite drop_return_yes, IH.
    + intro I. apply in_app_or in I as [I|[I|[]]]; [contradiction|discriminate].
Qed.

Lemma split_line : forall t : text, ~ In newline t \/ exists l t', t = l ++ newline :: t' /\ ~ In newline l.
Proof.
  induction t as [|c t IH]; [left; intros []|].
  destruct (ascii_dec c newline) as [->|N].
  - right. exists [], t. split; [reflexivity|intros []].
  - destruct IH as [IH|(l & t' & -> & I)].
    + left. intros [E|I]; [congruence|contradiction].
    + right. exists (c :: l), t'. split; [reflexivity|]. intros [E|E]; [congruence|contradiction].
Qed.

Lemma lines_written : forall t, written (lines t) t.
Proof.
  intro t. remember (length t) as n eqn:E. assert (L : length t <= n) by lia. clear E. revert t L.
  induction n as [|n IH]; intros t L.
  - destruct t; [|cbn in L; lia]. constructor.
  - destruct (split_line t) as [N|(l & t' & -> & N)].
    + destruct t as [|c t]; [constructor|].
      unfold lines. rewrite (lines_from_last (c :: t) []); [|exact N|discriminate].
      cbn [app]. constructor; [discriminate|exact N].
    + unfold lines. rewrite lines_from_line by exact N. cbn [app].
      assert (W : written (lines t') t').
      { apply IH. rewrite app_length in L. cbn in L. lia. }
      destruct (rev l) as [|c r] eqn:E.
      * apply (f_equal (@rev _)) in E. rewrite rev_involutive in E. subst l. cbn.
        apply (written_unix []); [exact N| |exact W]. intros x. destruct x; discriminate.
      * assert (El : l = rev r ++ [c]).
        { rewrite <- (rev_involutive l), E. reflexivity. }
        destruct (ascii_dec c return_) as [->|Nc].
        -- rewrite El, drop_return_yes, <- app_assoc. cbn [app]. apply written_dos; [|exact W].
           intro I. apply N. rewrite El. apply in_or_app. now left.
        -- rewrite drop_return_no.
           ++ apply written_unix; [exact N| |exact W]. intros x C. rewrite El in C.
              apply app_inj_tail in C as [_ C]. contradiction.
           ++ intros x C. rewrite El in C. apply app_inj_tail in C as [_ C]. contradiction.
Qed.

Theorem lines_iff : forall t ls, lines t = ls <-> written ls t.
Proof.
  intros t ls. split; [|apply written_lines]. intros <-. apply lines_written.
Qed.

(** * Comments *)

Lemma before_comment_cases : forall t,
  (before_comment t = t /\ ~ occurs dashes t)
  \/ (exists rest, t = before_comment t ++ dashes ++ rest
      /\ forall x y, t = x ++ dashes ++ y -> length (before_comment t) <= length x).
Proof.
  induction t as [|c t IH].
  - left. split; [reflexivity|]. intros (x & y & E). destruct x; discriminate.
  - destruct t as [|d t].
    + left. split; [reflexivity|]. intros (x & y & E). destruct x as [|? [|? x]]; discriminate.
    + change (before_comment (c :: d :: t))
        with (if Ascii.eqb c dash && Ascii.eqb d dash then [] else c :: before_comment (d :: t)).
      destruct (Ascii.eqb_spec c dash) as [->|Nc]; cbn [andb].
      * destruct (Ascii.eqb_spec d dash) as [->|Nd].
        { right. exists t. split; [reflexivity|]. intros x y _. cbn. lia. }
        destruct IH as [[E N]|(rest & E & M)].
        -- left. split; [now f_equal|]. intros (x & y & Ex). destruct x as [|e x].
           ++ injection Ex as Ed _. congruence.
           ++ injection Ex as _ Ex. apply N. now exists x, y.
        -- right. exists rest. split; [cbn [app]; now f_equal|]. intros x y Ex.
           destruct x as [|e x]; [injection Ex as Ed _; congruence|]. injection Ex as _ Ex.
           specialize (M x y Ex). cbn [length] in *. lia.
      * destruct IH as [[E N]|(rest & E & M)].
        -- left. split; [now f_equal|]. intros (x & y & Ex). destruct x as [|e x].
           ++ injection Ex as Ed _. congruence.
           ++ injection Ex as _ Ex. apply N. now exists x, y.
        -- right. exists rest. split; [cbn [app]; now f_equal|]. intros x y Ex.
           destruct x as [|e x]; [injection Ex as Ed _; congruence|]. injection Ex as _ Ex.
           specialize (M x y Ex). cbn [length] in *. lia.
Qed.

Lemma app_prefix : forall (a b c d : text), a ++ b = c ++ d -> length a <= length c ->
  exists e, c = a ++ e /\ b = e ++ d.
Proof.
  induction a as [|x a IH]; intros b c d E L.
  - exists c. now split.
  - destruct c as [|y c]; [cbn in L; lia|]. injection E as -> E. cbn in L.
    destruct (IH b c d E) as (e & -> & ->); [lia|]. exists e. now split.
Qed.

Lemma within_app : forall a b q, within q (a ++ b) = within (within q a) b.
Proof. induction a as [|c a IH]; intros b q; [reflexivity|]. cbn. apply IH. Qed.

Lemma within_quote : forall a q d, (forall e, q = Some e -> e = "'"%char \/ e = """"%char) ->
  within q a = Some d -> d = "'"%char \/ d = """"%char.
Proof.
  induction a as [|c a IH]; intros q d Q W; [now apply Q|]. cbn in W.
  apply (IH _ _) in W; [exact W|]. intros e E. destruct q as [f|].
  - destruct (Ascii.eqb c f); [discriminate|]. now apply Q.
  - destruct (Ascii.eqb_spec c "'"%char) as [->|]; cbn in E; [injection E as <-; now left|].
    destruct (Ascii.eqb_spec c """"%char) as [->|]; [injection E as <-; now right|discriminate].
Qed.

Lemma closed_dash : forall a, closed (a ++ [dash]) -> closed a.
Proof.
  intros a C. unfold closed in *. rewrite within_app in C.
  destruct (within None a) as [d|] eqn:E; [|reflexivity].
  apply within_quote in E; [|discriminate]. destruct E as [-> | ->]; discriminate C.
Qed.

(** What is sent is the line without its comment, or ends within a quote. *)
Theorem comment_sound : forall line code, uncommented line code ->
  before_comment line = code
  \/ (~ closed (before_comment line) /\ exists rest, rest <> [] /\ code = before_comment line ++ rest).
Proof.
  intros line code (rest & E & R & M).
  destruct (before_comment_cases line) as [[B N]|(rest' & B & M')].
  - left. rewrite B. destruct R as [->|(_ & t & ->)]; [now rewrite app_nil_r in E|].
    exfalso. apply N. exists code, t. exact E.
  - assert (L : length (before_comment line) <= length code).
    { destruct R as [->|(C & t & ->)].
      - rewrite app_nil_r in E. subst code. apply (f_equal (@length _)) in B.
        rewrite app_length in B. lia.
      - exact (M' code t E). }
    destruct (app_prefix (before_comment line) (dashes ++ rest') code rest) as (e & Ec & Er).
    { now rewrite <- B, <- E. }
    { exact L. }
    destruct e as [|c e]; [left; now rewrite app_nil_r in Ec|]. right. split; [|exists (c :: e); split; [discriminate|exact Ec]].
    intro C. specialize (M _ _ B C). rewrite Ec, app_length in M. cbn in M. lia.
Qed.

Theorem comment_iff : forall line code, uncommented line code ->
  (before_comment line = code <-> ~ occurs dashes code).
Proof.
  intros line code U. split.
  - intros <- (x & y & Ex). destruct (before_comment_cases line) as [[B N]|(rest' & B & M')].
    + apply N. exists x, y. now rewrite <- B.
    + assert (length (before_comment line) <= length x) as L.
      { apply (M' x (y ++ dashes ++ rest')). rewrite B at 1. rewrite Ex at 1.
        now rewrite <- !app_assoc. }
      apply (f_equal (@length _)) in Ex. rewrite !app_length in Ex. cbn in Ex. lia.
  - intro N. destruct (comment_sound line code U) as [E|(C & e & Ne & Ee)]; [exact E|]. exfalso.
    destruct U as (rest & E & R & M).
    destruct (before_comment_cases line) as [[B _]|(rest' & B & _)].
    { apply (f_equal (@length _)) in E, Ee, B. rewrite app_length in E, Ee.
      destruct e; [contradiction|]. cbn in Ee. lia. }
    assert (Q : dashes ++ rest' = e ++ rest).
    { rewrite B in E at 1. rewrite Ee, <- app_assoc in E. now apply app_inv_head in E. }
    destruct e as [|d1 [|d2 e]]; [contradiction| |].
    + injection Q as <- Q. destruct R as [->|(Cc & _)]; [discriminate|].
      rewrite Ee in Cc. apply C. now apply closed_dash.
    + injection Q as <- <- Q. apply N. rewrite Ee. exists (before_comment line), e. reflexivity.
Qed.

(** Every line has a part that is not a comment. *)
Lemma quoted_dec : forall line m,
  (exists x y, line = x ++ dashes ++ y /\ closed x /\ length x < m)
  \/ (forall x y, line = x ++ dashes ++ y -> closed x -> m <= length x).
Proof.
  intros line m.
  induction m as [|k IHk]; [right; intros; lia|].
  destruct IHk as [(x' & y' & A1 & A2 & A3)|IHk].
  - left. exists x', y'. repeat (split; [assumption|]). lia.
  - destruct (list_eq_dec ascii_dec (firstn 2 (skipn k line)) dashes) as [F|F].
    + destruct (within None (firstn k line)) eqn:W.
      * right. intros x' y' A1 A2. specialize (IHk x' y' A1 A2).
        destruct (Nat.eq_dec (length x') k) as [Ek|Nk]; [|lia].
        exfalso. rewrite A1 in W. rewrite firstn_app, Ek, Nat.sub_diag in W. cbn in W.
        rewrite app_nil_r, firstn_all2 in W by lia. unfold closed in A2. congruence.
      * left. exists (firstn k line), (skipn 2 (skipn k line)). rewrite <- F, !firstn_skipn.
        split; [reflexivity|]. split; [exact W|]. rewrite firstn_length. lia.
    + right. intros x' y' A1 A2. specialize (IHk x' y' A1 A2).
      destruct (Nat.eq_dec (length x') k) as [Ek|Nk]; [|lia]. exfalso. apply F.
      rewrite A1, skipn_app, Ek, Nat.sub_diag. cbn. rewrite skipn_all2 by lia. reflexivity.
Qed.

Theorem uncommented_exists : forall line, exists code, uncommented line code.
Proof.
  intro line.
  assert (G : forall n, (exists x y, line = x ++ dashes ++ y /\ closed x /\ length x < n)
     -> exists code, uncommented line code).
  { induction n as [|n IH]; intros (x & y & E & C & L); [lia|].
    destruct (quoted_dec line (length x)) as [(x' & y' & A1 & A2 & A3)|D].
    - apply IH. exists x', y'. repeat (split; [assumption|]). lia.
    - exists x, (dashes ++ y). split; [exact E|]. split; [right; split; [exact C|now exists y]|].
      exact D. }
  destruct (quoted_dec line (length line)) as [H|H]; [exact (G _ H)|].
  exists line, []. rewrite app_nil_r. split; [reflexivity|]. split; [now left|].
  intros x y E C. exact (H x y E C).
Qed.

(** * Executing *)

Lemma white_is : forall c, white [c] <-> (is_white c = true /\ c <> newline).
Proof.
  intro c. unfold white. split.
  - intro F. apply Forall_cons_iff in F as [F _].
    destruct F as [<-|[<-|[<-|[<-|[<-|[]]]]]]; (split; [reflexivity|discriminate]).
  - intros [W N]. constructor; [|constructor]. unfold is_white, space in W.
    repeat rewrite orb_true_iff in W. rewrite !Ascii.eqb_eq in W. cbn.
    destruct W as [[[[[W|W]|W]|W]|W]|W]; subst c; try tauto; now contradiction N.
Qed.

Lemma trim_start_white : forall w t, white w -> trim_start (w ++ t) = trim_start t.
Proof.
  induction w as [|c w IH]; intros t W; [reflexivity|]. apply Forall_cons_iff in W as [Wc W].
  cbn. destruct (proj1 (white_is c)) as [-> _]; [now constructor|]. now apply IH.
Qed.

Lemma trim_start_not : forall c t, ~ white [c] -> c <> newline -> trim_start (c :: t) = c :: t.
Proof.
  intros c t W N. cbn. destruct (is_white c) eqn:E; [|reflexivity].
  contradiction W. apply white_is. now split.
Qed.

Lemma trim_word : forall w q w' c t d t', white w -> ~ In newline q -> q = c :: t -> ~ white [c] ->
  q = t' ++ [d] -> ~ white [d] -> white w' -> trim (w ++ q ++ w') = q.
Proof.
  intros w q w' c t d t' W Nl E Wc E' Wd W'. unfold trim.
  rewrite trim_start_white by exact W. rewrite E at 1. cbn [app].
  rewrite trim_start_not; [|exact Wc|intros ->; apply Nl; rewrite E; now left].
  change (c :: t ++ w') with ((c :: t) ++ w'). rewrite <- E.
  rewrite rev_app_distr, trim_start_white.
  - rewrite E' at 1. rewrite rev_app_distr. cbn [rev app].
    rewrite trim_start_not; [|exact Wd|intros ->; apply Nl; rewrite E'; apply in_or_app; right; now left].
    cbn [rev]. rewrite rev_involutive. now symmetry.
  - unfold white in *. rewrite Forall_forall in *. intros x X. apply W'. now apply in_rev.
Qed.

Lemma trim_statement : forall w q w', white w -> on_one_line q -> white w' -> trim (w ++ q ++ w') = q.
Proof.
  intros w q w' W (Nl & _ & (c & t & E & Wc & _) & (d & t' & E' & Wd & _)) W'.
  now apply trim_word with c t d t'.
Qed.

Lemma parse_statement : forall w q w', white w -> on_one_line q -> white w' ->
  parse (w ++ q ++ w') = Send (Query q).
Proof.
  intros w q w' W Q W'. unfold parse. rewrite trim_statement by assumption.
  destruct Q as (_ & _ & (c & t & -> & _ & B) & _).
  destruct (Ascii.eqb_spec c backslash) as [->|_]; [contradiction|reflexivity].
Qed.

Lemma white_no_dash : forall w, white w -> ~ In dash w.
Proof.
  intros w W I. unfold white in W. rewrite Forall_forall in W. specialize (W _ I).
  destruct W as [W|[W|[W|[W|[W|[]]]]]]; discriminate.
Qed.

(** The first dashes are those of the comment. *)
Lemma no_dashes_app : forall a b, ~ occurs dashes a -> ~ occurs dashes b ->
  (forall a', a <> a' ++ [dash]) \/ (forall b', b <> dash :: b') -> ~ occurs dashes (a ++ b).
Proof.
  intros a b A B D (x & y & E).
  destruct (Nat.le_gt_cases (length a) (length x)) as [L|L].
  - destruct (app_prefix a b x (dashes ++ y) E L) as (e & -> & Eb). apply B. now exists e, y.
  - symmetry in E. destruct (app_prefix x (dashes ++ y) a b E ltac:(lia)) as (e & -> & Eb).
    rewrite app_length in L. destruct e as [|e1 [|e2 e]].
    + cbn in L. lia.
    + injection Eb as <- Eb. destruct D as [D|D]; [now apply (D x)|]. now apply (D y).
    + injection Eb as <- <- Eb. apply A. now exists x, e.
Qed.

Lemma white_no_dashes : forall w, white w -> ~ occurs dashes w.
Proof.
  intros w W (x & y & ->). apply (white_no_dash _ W). apply in_or_app. right. now left.
Qed.

Lemma before_comment_code : forall a c, ~ occurs dashes a -> (forall a', a <> a' ++ [dash]) ->
  comment c -> before_comment (a ++ c) = a.
Proof.
  intros a c A D C. destruct (before_comment_cases (a ++ c)) as [[B N]|(rest & B & M)].
  - destruct C as [->|(t & ->)]; [now rewrite app_nil_r in *|]. exfalso. apply N. now exists a, t.
  - destruct C as [->|(t & ->)].
    + exfalso. rewrite app_nil_r in B. apply A. eexists. eexists. exact B.
    + specialize (M a t eq_refl). symmetry in B.
      destruct (app_prefix _ _ _ _ B M) as (e & Ea & Er).
      destruct e as [|e1 [|e2 e]]; [rewrite app_nil_r in Ea; now symmetry| |].
      * exfalso. injection Er as <- _. now apply (D _ Ea).
      * exfalso. injection Er as <- <- _. apply A. rewrite Ea. eexists. exists e. reflexivity.
Qed.

Lemma last_white : forall (a w : text) d, white w -> (forall a', a <> a' ++ [d]) -> ~ white [d] ->
  forall a', a ++ w <> a' ++ [d].
Proof.
  intros a w d W A N a' E. destruct w as [|c w] using rev_ind.
  - rewrite app_nil_r in E. now apply (A a').
  - clear IHw. rewrite app_assoc in E. apply app_inj_tail in E as [_ ->]. apply N.
    apply Forall_app in W as [_ W]. exact W.
Qed.

Lemma line_executes : forall l qs, line_means l qs ->
  (qs = [] /\ before_comment l = [])
  \/ exists q w w', qs = [q] /\ before_comment l = w ++ q ++ w' /\ w ++ q ++ w' <> []
     /\ parse (w ++ q ++ w') = Send (Query q).
Proof.
  intros l qs M. destruct M as [c C|w q w' c W Q W' C].
  - left. split; [reflexivity|]. apply (before_comment_code [] c); [|intros [|? ?]; discriminate|exact C].
    intros (x & y & E). destruct x; discriminate.
  - right. exists q, w, w'. split; [reflexivity|].
    assert (Nd : ~ white [dash]) by (intro H; apply (white_no_dash _ H); now left).
    pose proof Q as (Nl & Qd & (b & t & Eb & _) & (d & t' & Ed & _ & Dd)).
    assert (Last : forall a', w ++ q <> a' ++ [dash]).
    { intros a' E. rewrite Ed, app_assoc in E. apply app_inj_tail in E as [_ E]. contradiction. }
    split; [|split; [|now apply parse_statement]].
    + replace (w ++ q ++ w' ++ c) with ((w ++ q ++ w') ++ c) by now rewrite <- !app_assoc.
      apply before_comment_code; [| |exact C].
      * rewrite app_assoc. apply no_dashes_app; [|now apply white_no_dashes|now left].
        apply no_dashes_app; [now apply white_no_dashes|exact Qd|].
        left. intros a' E. apply (white_no_dash _ W). rewrite E. apply in_or_app. right. now left.
      * rewrite app_assoc. now apply last_white.
    + rewrite Eb. now destruct w.
Qed.

Theorem file_executed : forall S valid (serve : S -> request -> S * bool) s file ls qss,
  written ls file -> Forall (fun l => valid l = true) ls -> Forall2 line_means ls qss ->
  exists trace, execute_file valid serve s file = (trace, serves serve s (map Query (concat qss)), Zero)
    /\ map request_of trace = map Query (concat qss)
    /\ map succeeded trace = succeeds serve s (map Query (concat qss))
    /\ Forall (fun x => error_printed x = negb (succeeded x)) trace.
Proof.
  intros S valid serve s file ls qss W V M. unfold execute_file. rewrite (written_lines _ _ W). clear W file.
  revert s V. induction M as [|l qs ls qss L M IH]; intros s V.
  - exists []. now repeat split.
  - apply Forall_cons_iff in V as [Vl V]. cbn [execute concat]. rewrite Vl.
    destruct (line_executes l qs L) as [[-> B]|(q & w & w' & -> & B & N & P)]; rewrite B.
    + destruct (IH s V) as (trace & H). exists trace. exact H.
    + destruct (w ++ q ++ w') as [|c t]; [contradiction|]. rewrite P.
      cbn [app map serves succeeds].
      destruct (serve s (Query q)) as [s1 ok]. cbn [fst snd].
      destruct (IH s1 V) as (trace & E & H1 & H2 & H3). rewrite E.
      exists (Sent (Query q) ok (negb ok) :: trace). split; [reflexivity|]. cbn [map request_of succeeded].
      split; [now f_equal|]. split; [now f_equal|]. constructor; [reflexivity|exact H3].
Qed.

(** * Commands *)

Theorem quits : forall S valid (serve : S -> request -> S * bool) ls l ls' s,
  valid l = true -> before_comment l <> [] -> parse (before_comment l) = Quit ->
  execute valid serve s (ls ++ l :: ls') = execute valid serve s (ls ++ [l]).
Proof.
  intros S valid serve ls. induction ls as [|k ls IH]; intros l ls' s V B P; cbn [app execute].
  - rewrite V. destruct (before_comment l); [contradiction|]. now rewrite P.
  - destruct (valid k); [|reflexivity]. destruct (before_comment k) as [|c t]; [now apply IH|].
    destruct (parse (c :: t)); try reflexivity; try now apply IH.
    destruct (serve s r) as [s1 ok]. now rewrite (IH l ls' s1 V B P).
Qed.

Theorem errors_printed : forall S valid (serve : S -> request -> S * bool) ls s x,
  In x (fst (fst (execute valid serve s ls))) ->
  (error_printed x = true <-> succeeded x = false /\ request_of x <> Tables).
Proof.
  intros S valid serve ls. induction ls as [|l ls IH]; intros s x X; cbn [execute] in X; [destruct X|].
  destruct (valid l); [|destruct X]. destruct (before_comment l) as [|c t]; [now apply (IH s)|].
  destruct (parse (c :: t)); try now apply (IH s).
  destruct (serve s r) as [s1 ok]. destruct (execute valid serve s1 ls) as [[rest s2] e] eqn:E.
  cbn [fst] in X. destruct X as [<-|X].
  - cbn. destruct r, ok; cbn; split; intuition congruence.
  - apply (IH s1). now rewrite E.
Qed.

Lemma execute_send : forall S valid (serve : S -> request -> S * bool) s l ls query r,
  valid l = true -> before_comment l = query -> query <> [] -> parse query = Send r ->
  exists ok printed, fst (fst (execute valid serve s (l :: ls)))
    = Sent r ok printed :: fst (fst (execute valid serve (fst (serve s r)) ls)).
Proof.
  intros S valid serve s l ls query r V B N P. cbn [execute]. rewrite V, B.
  destruct query as [|c q]; [contradiction|]. rewrite P. destruct (serve s r) as [s1 ok]. cbn [fst].
  destruct (execute valid serve s1 ls) as [[rest s2] e]. eexists. eexists. reflexivity.
Qed.

(** The command to quit, with white space around it and a comment. *)
Theorem quits_line : forall S valid (serve : S -> request -> S * bool) ls w w' c ls' s,
  white w -> white w' -> comment c -> valid (w ++ ["\"%char; "q"%char] ++ w' ++ c) = true ->
  execute valid serve s (ls ++ (w ++ ["\"%char; "q"%char] ++ w' ++ c) :: ls')
  = execute valid serve s (ls ++ [w ++ ["\"%char; "q"%char] ++ w' ++ c]).
Proof.
  intros S valid serve ls w w' c ls' s W W' C V.
  assert (Nd : ~ white [dash]) by (intro H; apply (white_no_dash _ H); now left).
  assert (Nw : forall d, d = "\"%char \/ d = "q"%char -> ~ white [d]).
  { intros d D H. apply Forall_cons_iff in H as [H _].
    destruct D as [-> | ->]; destruct H as [H|[H|[H|[H|[H|[]]]]]]; discriminate. }
  assert (Q : ~ occurs dashes ["\"%char; "q"%char]).
  { intros (x & y & E). destruct x as [|? [|? [|? x]]]; discriminate. }
  assert (B : before_comment (w ++ ["\"%char; "q"%char] ++ w' ++ c) = w ++ ["\"%char; "q"%char] ++ w').
  { replace (w ++ ["\"%char; "q"%char] ++ w' ++ c) with ((w ++ ["\"%char; "q"%char] ++ w') ++ c)
      by now rewrite <- !app_assoc.
    assert (Last : forall a', w ++ ["\"%char; "q"%char] <> a' ++ [dash]).
    { intros a' E. change ["\"%char; "q"%char] with (["\"%char] ++ ["q"%char]) in E.
      rewrite app_assoc in E. apply app_inj_tail in E as [_ E]. discriminate. }
    apply before_comment_code; [| |exact C].
    - rewrite app_assoc. apply no_dashes_app; [|now apply white_no_dashes|now left].
      apply no_dashes_app; [now apply white_no_dashes|exact Q|].
      left. intros a' E. apply (white_no_dash _ W). rewrite E. apply in_or_app. right. now left.
    - rewrite app_assoc. now apply last_white. }
  apply quits; [exact V| |]; rewrite B.
  - now destruct w.
  - unfold parse.
    rewrite (trim_word w ["\"%char; "q"%char] w' "\"%char ["q"%char] "q"%char ["\"%char]); try assumption;
      try reflexivity; try (apply Nw; tauto).
    intros [H|[H|[]]]; discriminate.
Qed.
