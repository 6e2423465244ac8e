(** Proofs about the commands in a file. *)
From Coq Require Import Bool Ascii String List Lia.
From Verif Require Import Model.QueryFile Spec.QueryFileSpec Proofs.QueryFileProofs.
Import ListNotations.
Open Scope list_scope.

Lemma split_from_word : forall x word t, ~ In " "%char x ->
  split_from word (x ++ " "%char :: t) = (word ++ x) :: split_from [] t.
Proof.
  induction x as [|c x IH]; intros w t N; cbn [app split_from].
  - rewrite app_nil_r. reflexivity.
  - destruct (Ascii.eqb_spec c space) as [->|_]; [exfalso; apply N; now left|].
    rewrite IH by (intro I; apply N; now right). now rewrite <- app_assoc.
Qed.
Lemma split_from_last : forall x word, ~ In " "%char x -> split_from word x = [word ++ x].
Proof.
  induction x as [|c x IH]; intros w N; cbn [split_from].
  - now rewrite app_nil_r.
  - destruct (Ascii.eqb_spec c space) as [->|_]; [exfalso; apply N; now left|].
    rewrite IH by (intro I; apply N; now right). now rewrite <- app_assoc.
Qed.
Lemma split_joined : forall words, words <> [] -> Forall (fun x => ~ In " "%char x) words ->
  split (joined words) = words.
Proof.
  unfold split. induction words as [|w words IH]; intros N F; [contradiction|].
  apply Forall_cons_iff in F as [Fw F]. destruct words as [|v words].
  - cbn [joined]. now rewrite split_from_last.
  - change (joined (w :: v :: words)) with (w ++ " "%char :: joined (v :: words)).
    rewrite split_from_word by exact Fw. cbn [app]. now rewrite IH.
Qed.

Lemma is_word : forall s, is (word s) s = true.
Proof. intro s. unfold is, word. now destruct (list_eq_dec ascii_dec _ _). Qed.
Lemma is_not : forall t s, t <> word s -> is t s = false.
Proof. intros t s N. unfold is. destruct (list_eq_dec ascii_dec t _); [contradiction|reflexivity]. Qed.

Lemma command_is : forall words rs, Forall (fun x => ~ In " "%char x) words ->
  command_asks words rs ->
  (exists t, joined words = backslash :: t)
  /\ ((exists r, rs = [r] /\ command (joined words) = Send r)
      \/ (rs = [] /\ (command (joined words) = Help \/ command (joined words) = Invalid))).
Proof.
  intros words rs F A.
  assert (N : words <> []) by (destruct A; discriminate).
  unfold command. rewrite (split_joined words N F).
  destruct A as [table rest|rest|rest|rest| |name rest U].
  - split; [eexists; reflexivity|]. left. exists (Schema table). now rewrite is_word.
  - split; [destruct rest; eexists; reflexivity|]. left. now exists Tables.
  - split; [destruct rest; eexists; reflexivity|]. left. now exists FlushMemory.
  - split; [destruct rest; eexists; reflexivity|]. left. now exists FlushNode.
  - split; [eexists; reflexivity|]. right. split; [reflexivity|now right].
  - split; [destruct rest; eexists; reflexivity|]. right. split; [reflexivity|].
    assert (U' : forall s, In s ["\d"; "\dt"; "\f"; "\F"; "\q"]%string -> is (backslash :: name) s = false).
    { intros s I. apply is_not. intros E. apply U. rewrite E. now apply in_map. }
    rewrite (U' "\d"%string), (U' "\dt"%string), (U' "\f"%string), (U' "\F"%string), (U' "\q"%string)
      by (cbn; tauto).
    destruct (is (backslash :: name) "\h"); auto.
Qed.

Lemma line_sends : forall l rs, line_asks l rs ->
  (rs = [] /\ before_comment l = [])
  \/ (before_comment l <> []
     /\ ((exists r, rs = [r] /\ parse (before_comment l) = Send r)
         \/ (rs = [] /\ (parse (before_comment l) = Help \/ parse (before_comment l) = Invalid)))).
Proof.
  intros l rs A. destruct A as [l qs M|w words rs w' c W F A Nl Nd (t & d & E & Wd & Dd) W' C].
  - destruct (line_executes l qs M) as [[-> B]|(q & w & w' & -> & B & N & P)]; [now left|].
    right. rewrite B. split; [exact N|]. left. exists (Query q). now split.
  - right. destruct (command_is words rs F A) as [[t' E'] H].
    assert (Bd : ~ white [dash]) by (intro X; apply (white_no_dash _ X); now left).
    assert (Bb : ~ white [backslash]).
    { intro X. apply Forall_cons_iff in X as [X _].
      destruct X as [X|[X|[X|[X|[X|[]]]]]]; discriminate. }
    assert (Last : forall a', w ++ joined words <> a' ++ [dash]).
    { intros a' Q. rewrite E, app_assoc in Q. apply app_inj_tail in Q as [_ Q]. contradiction. }
    assert (B : before_comment (w ++ joined words ++ w' ++ c) = w ++ joined words ++ w').
    { replace (w ++ joined words ++ w' ++ c) with ((w ++ joined words ++ w') ++ c)
        by now rewrite <- !app_assoc.
      apply before_comment_code; [| |exact C].
      - rewrite app_assoc. apply no_dashes_app; [|now apply white_no_dashes|now left].
        apply no_dashes_app; [now apply white_no_dashes|exact Nd|].
        left. intros a' Q. apply (white_no_dash _ W). rewrite Q. apply in_or_app. right. now left.
      - rewrite app_assoc. now apply last_white. }
    rewrite B. split; [rewrite E'; now destruct w|].
    unfold parse.
    rewrite (trim_word w (joined words) w' backslash t' d t W Nl E' Bb E Wd W').
    rewrite E' in H |- *. rewrite Ascii.eqb_refl. exact H.
Qed.

Theorem commands_executed : forall S valid (serve : S -> request -> S * bool) s file ls requests,
  written ls file -> Forall (fun l => valid l = true) ls -> Forall2 line_asks ls requests ->
  exists trace, execute_file valid serve s file = (trace, serves serve s (concat requests), Zero)
    /\ map request_of trace = concat requests
    /\ map succeeded trace = succeeds serve s (concat requests)
    /\ Forall (fun x => error_printed x = true <-> succeeded x = false /\ request_of x <> Tables) trace.
Proof.
  intros S valid serve s file ls qss W V M. unfold execute_file. rewrite (written_lines _ _ W). clear W file.
  revert s V. induction M as [|l rs ls rss L M IH]; intros s V.
  - exists []. now repeat split.
  - apply Forall_cons_iff in V as [Vl V]. cbn [execute concat]. rewrite Vl.
    destruct (line_sends l rs L) as [[-> B]|(N & [(r & -> & P)|[-> P]])].
    + rewrite B. exact (IH s V).
    + destruct (before_comment l) as [|c t]; [contradiction|]. rewrite P.
      cbn [app map serves succeeds].
      destruct (serve s r) as [s1 ok] eqn:Sv. cbn [fst snd].
      destruct (IH s1 V) as (trace & E & H1 & H2 & H3). rewrite E.
      eexists. split; [reflexivity|]. cbn [map request_of succeeded].
      split; [now f_equal|]. split; [now f_equal|]. constructor; [|exact H3].
      cbn [error_printed succeeded request_of]. destruct r, ok; cbn; split; intuition congruence.
    + destruct (before_comment l) as [|c t]; [contradiction|].
      destruct P as [P|P]; rewrite P; exact (IH s V).
Qed.

(** What each command does. *)
Example some_commands : Forall2 line_asks
  [word " \d wind-mill x"; word "\dt"; word "\unknown -- a comment"; word "\f"; word "DROP TABLE a"]
  [[Schema (word "wind-mill")]; [Tables]; []; [FlushMemory]; [Query (word "DROP TABLE a")]].
Proof.
  assert (no : forall x, before_comment x = x -> ~ occurs dashes x).
  { intros x E. destruct (before_comment_cases x) as [[_ N]|(rest & Q & _)]; [exact N|].
    exfalso. rewrite E in Q. apply (f_equal (@List.length _)) in Q. rewrite !app_length in Q.
    cbn in Q. lia. }
  assert (nw : forall c, is_white c = false -> ~ white [c]).
  { intros c E H. apply white_is in H. destruct H. congruence. }
  assert (free : forall (x : list ascii) c, existsb (Ascii.eqb c) x = false -> ~ In c x).
  { intros x c E I. apply not_true_iff_false in E. apply E. apply existsb_exists. exists c.
    split; [exact I|apply Ascii.eqb_refl]. }
  constructor; [|constructor; [|constructor; [|constructor; [|constructor; [|constructor]]]]].
  - apply (asks_command (word " ") [word "\d"; word "wind-mill"; word "x"] _ [] []);
      [repeat constructor| |constructor| | | |constructor|now left].
    + repeat constructor; apply free; reflexivity.
    + apply free. reflexivity.
    + apply no. reflexivity.
    + exists (word "\d wind-mill "), "x"%char. split; [reflexivity|]. split; [|discriminate]. now apply nw.
  - apply (asks_command [] [word "\dt"] _ [] []);
      [constructor| |constructor| | | |constructor|now left].
    + repeat constructor; apply free; reflexivity.
    + apply free. reflexivity.
    + apply no. reflexivity.
    + exists (word "\d"), "t"%char. split; [reflexivity|]. split; [|discriminate]. now apply nw.
  - apply (asks_command [] [word "\unknown"] _ (word " ") (word "-- a comment"));
      [constructor| |apply asks_nothing| | | |repeat constructor|right; now eexists].
    + repeat constructor; apply free; reflexivity.
    + cbn. intros H. repeat (destruct H as [H|H]; [discriminate H|]). destruct H.
    + apply free. reflexivity.
    + apply no. reflexivity.
    + exists (word "\unknow"), "n"%char. split; [reflexivity|]. split; [|discriminate]. now apply nw.
  - apply (asks_command [] [word "\f"] _ [] []);
      [constructor| |constructor| | | |constructor|now left].
    + repeat constructor; apply free; reflexivity.
    + apply free. reflexivity.
    + apply no. reflexivity.
    + exists (word "\"), "f"%char. split; [reflexivity|]. split; [|discriminate]. now apply nw.
  - apply (asks_statement _ [word "DROP TABLE a"]).
    apply (means_one [] (word "DROP TABLE a") [] []); [constructor| |constructor|now left].
    split; [apply free; reflexivity|]. split; [apply no; reflexivity|]. split.
    + eexists. eexists. split; [reflexivity|]. split; [now apply nw|discriminate].
    + exists "a"%char, (word "DROP TABLE "). split; [reflexivity|]. split; [now apply nw|discriminate].
Qed.
