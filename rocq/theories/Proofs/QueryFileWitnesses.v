(** Files of which other queries are executed than those that are written in them. *)
From Coq Require Import Arith Bool Ascii String List Lia.
From Verif Require Import Model.QueryFile Spec.QueryFileSpec Proofs.QueryFileProofs.
Import ListNotations.
Open Scope nat_scope.
Open Scope list_scope.

Definition t (s : string) : text := list_ascii_of_string s.
Definition all_valid (_ : text) : bool := true.
(** A server that counts the requests and executes none or all of them. *)
Definition answers (ok : bool) (n : nat) (_ : request) : nat * bool := (S n, ok).

Lemma uncommented_line : forall line,
  forallb (fun k => negb ((if list_eq_dec ascii_dec (firstn 2 (skipn k line)) dashes then true else false)
    && match within None (firstn k line) with None => true | Some _ => false end)) (seq 0 (length line))
  = true -> uncommented line line.
Proof.
  intros line F. exists []. rewrite app_nil_r. split; [reflexivity|]. split; [now left|].
  intros x y E C. exfalso. rewrite forallb_forall in F.
  assert (I : In (length x) (seq 0 (length line))).
  { apply in_seq. rewrite E, app_length. cbn. lia. }
  specialize (F _ I).
  assert (K : skipn (length x) line = dashes ++ y).
  { rewrite E, skipn_app, Nat.sub_diag, skipn_all. reflexivity. }
  assert (G : firstn (length x) line = x).
  { rewrite E, firstn_app, Nat.sub_diag, firstn_all. cbn. apply app_nil_r. }
  rewrite K, G in F. unfold closed in C. rewrite C in F. discriminate F.
Qed.

(** A literal with dashes. *)
Definition dashes_line : text := t "INSERT INTO notes VALUES ('2026-11-16', 'a -- b')".
Theorem comment_wrong : exists line code, uncommented line code /\ before_comment line <> code.
Proof.
  exists dashes_line, dashes_line. split; [apply uncommented_line; vm_compute; reflexivity|].
  vm_compute. discriminate.
Qed.

(** A statement on two lines. *)
Definition two_lines : text := t "INSERT INTO a SELECT * FROM b" ++ newline :: t "WHERE c > 1;" ++ [newline].
Definition first_line : text := t "INSERT INTO a SELECT * FROM b".
Definition both_lines : text := t "INSERT INTO a SELECT * FROM b" ++ newline :: t "WHERE c > 1".

Lemma statement_semicolon : forall q file, statement_of q file ->
  exists p r, file = p ++ q ++ ";"%char :: r /\ (p = [] \/ exists p' , p = p' ++ [";"%char]).
Proof.
  intros q file H. induction H as [q r C N|p q r C H IH].
  - exists [], r. split; [reflexivity|now left].
  - destruct IH as (p' & r' & -> & P). exists (p ++ ";"%char :: p'), r'.
    split; [now rewrite <- app_assoc|]. right. destruct P as [->|(p2 & ->)].
    + exists p. reflexivity.
    + exists (p ++ ";"%char :: p2). now rewrite <- app_assoc.
Qed.

Lemma no_semicolon_split : forall a b x y : text, ~ In ";"%char a -> ~ In ";"%char b ->
  a ++ ";"%char :: b = x ++ ";"%char :: y -> a = x /\ b = y.
Proof.
  induction a as [|c a IH]; intros b x y A B E.
  - destruct x as [|d x]; [injection E as ->; now split|]. injection E as <- E. exfalso. apply B.
    rewrite E. apply in_or_app. right. now left.
  - destruct x as [|d x].
    + injection E as -> _. exfalso. apply A. now left.
    + injection E as -> E. destruct (IH b x y) as [-> ->]; try assumption; [|now split].
      intro I. apply A. now right.
Qed.

Theorem statement_wrong : exists file q, written [first_line; t "WHERE c > 1;"] file
  /\ (forall S (serve : S -> request -> S * bool) s,
        In (Query q) (map request_of (fst (fst (execute_file all_valid serve s file)))))
  /\ (exists st, statement_of st file)
  /\ forall st w w', statement_of st file -> blank w -> blank w' -> st <> w ++ q ++ w'.
Proof.
  exists two_lines, first_line.
  assert (N1 : ~ In ";"%char both_lines).
  { vm_compute. intro H. repeat (destruct H as [H|H]; [discriminate H|]). destruct H. }
  assert (N2 : ~ In ";"%char [newline]) by (intros [H|[]]; discriminate H).
  assert (E2 : two_lines = both_lines ++ ";"%char :: [newline]) by (vm_compute; reflexivity).
  split; [apply lines_iff; vm_compute; reflexivity|]. split; [|split].
  - intros S serve s. unfold execute_file.
    replace (lines two_lines) with [first_line; t "WHERE c > 1;"] by (vm_compute; reflexivity).
    destruct (execute_send S all_valid serve s first_line [t "WHERE c > 1;"] first_line (Query first_line))
      as (ok & printed & ->); try (vm_compute; reflexivity); [discriminate|]. now left.
  - exists both_lines. rewrite E2. apply statement_first; [vm_compute; reflexivity|].
    intros x y E. exfalso. apply N1. rewrite E. apply in_or_app. right. now left.
  - intros st w w' H W W' E. destruct (statement_semicolon _ _ H) as (p & r & Ef & P).
    rewrite E2 in Ef. rewrite app_assoc in Ef.
    destruct (no_semicolon_split _ _ _ _ N1 N2 Ef) as [Ep _].
    destruct P as [->|(p' & ->)].
    + cbn [app] in Ep. rewrite <- Ep in E. clear - E W W'.
      destruct w as [|c w].
      * cbn [app] in E. unfold both_lines, first_line in E. apply app_inv_head in E. subst w'.
        apply Forall_cons_iff in W' as [_ W']. apply Forall_cons_iff in W' as [W' _].
        destruct W' as [W'|W']; [|discriminate]. apply Forall_cons_iff in W' as [W' _].
        destruct W' as [W'|[W'|[W'|[W'|[W'|[]]]]]]; discriminate.
      * injection E as <- _. apply Forall_cons_iff in W as [W _].
        destruct W as [W|W]; [|discriminate]. apply Forall_cons_iff in W as [W _].
        destruct W as [W|[W|[W|[W|[W|[]]]]]]; discriminate.
    + apply N1. rewrite Ep. apply in_or_app. left. apply in_or_app. right. now left.
Qed.

(** A file with two statements of which none succeeds. *)
Definition two_statements : text :=
  t "DROP TABLE a -- the old table" ++ return_ :: newline :: t "-- then" ++ newline ::
  t "  CREATE TABLE a(b REAL)".
Definition two_means : list (list text) := [[t "DROP TABLE a"]; []; [t "CREATE TABLE a(b REAL)"]].
Definition statement_lines : list text :=
  [t "DROP TABLE a -- the old table"; t "-- then"; t "  CREATE TABLE a(b REAL)"].

Ltac not_white := let H := fresh in intro H; apply Forall_cons_iff in H as [H _];
  destruct H as [H|[H|[H|[H|[H|[]]]]]]; discriminate H.
Lemma not_occurs : forall x, before_comment x = x -> ~ occurs dashes x.
Proof.
  intros x B. destruct (before_comment_cases x) as [[_ N]|(r & E & _)]; [exact N|].
  rewrite B in E. apply (f_equal (@List.length _)) in E. rewrite app_length in E. cbn in E. lia.
Qed.

Lemma two_written : written statement_lines two_statements.
Proof. apply lines_iff. vm_compute. reflexivity. Qed.
Lemma two_meant : Forall2 line_means statement_lines two_means.
Proof.
  constructor; [|constructor; [|constructor; [|constructor]]].
  - apply (means_one [] (t "DROP TABLE a") (t " ") (t "-- the old table")).
    + constructor.
    + split; [vm_compute; intro H; repeat (destruct H as [H|H]; [discriminate H|]); destruct H|].
      split; [apply not_occurs; vm_compute; reflexivity|]. split.
      * exists "D"%char, (t "ROP TABLE a"). split; [reflexivity|]. split; [not_white|discriminate].
      * exists "a"%char, (t "DROP TABLE "). split; [reflexivity|]. split; [not_white|discriminate].
    + constructor; [now left|constructor].
    + right. now exists (t " the old table").
  - apply means_none. right. now exists (t " then").
  - apply (means_one (t "  ") (t "CREATE TABLE a(b REAL)") [] []).
    + constructor; [now left|constructor; [now left|constructor]].
    + split; [vm_compute; intro H; repeat (destruct H as [H|H]; [discriminate H|]); destruct H|].
      split; [apply not_occurs; vm_compute; reflexivity|]. split.
      * exists "C"%char, (t "REATE TABLE a(b REAL)"). split; [reflexivity|]. split; [not_white|discriminate].
      * exists ")"%char, (t "CREATE TABLE a(b REAL"). split; [reflexivity|]. split; [not_white|discriminate].
    + constructor.
    + now left.
Qed.

Theorem status_wrong : exists file trace s,
  execute_file all_valid (answers false) 0 file = (trace, s, Zero)
  /\ length trace = 2 /\ Forall (fun x => succeeded x = false) trace.
Proof.
  exists two_statements. eexists. eexists. split; [vm_compute; reflexivity|]. split; [reflexivity|].
  repeat constructor.
Qed.

(** A comment that is indented. *)
Theorem blank_sent : exists line, (exists w c, line = w ++ c /\ white w /\ comment c)
  /\ forall S (serve : S -> request -> S * bool) s,
     map request_of (fst (fst (execute_file all_valid serve s line))) = [Query []].
Proof.
  exists (t "  -- then"). split.
  - exists (t "  "), (t "-- then"). split; [reflexivity|]. split.
    + constructor; [now left|constructor; [now left|constructor]].
    + right. now exists (t " then").
  - intros S serve s. unfold execute_file.
    replace (lines (t "  -- then")) with [t "  -- then"] by (vm_compute; reflexivity).
    destruct (execute_send S all_valid serve s (t "  -- then") [] (t "  ") (Query []))
      as (ok & printed & ->); try (vm_compute; reflexivity). discriminate.
Qed.

(** An error of \dt. *)
Theorem error_ignored : exists file trace s x,
  execute_file all_valid (answers false) 0 file = (trace, s, Zero)
  /\ In x trace /\ succeeded x = false /\ error_printed x = false.
Proof.
  exists (t "\dt"). eexists. eexists. eexists. split; [vm_compute; reflexivity|]. split; [now left|].
  split; reflexivity.
Qed.
