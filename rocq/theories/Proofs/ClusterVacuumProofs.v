(** Proofs about VACUUM CLUSTER. *)
From Coq Require Import ZArith Bool Ascii String List Permutation Lia.
From Verif Require Import Model.Base Model.Sql Model.Statements Model.EmbeddedTables
  Model.ClusterVacuum Spec.StatementSpec Spec.ClusterVacuumSpec Proofs.SqlProofs
  Proofs.StatementProofs Proofs.EmbeddedTablesProofs.
Import ListNotations.
Open Scope nat_scope.
Open Scope string_scope.
Open Scope list_scope.

(** Names followed by other words. *)
Lemma append_thrice : forall a b c, ((a ++ b) ++ c)%string = (a ++ b ++ c)%string.
Proof.
  induction a as [|d a IH]; intros b c; [reflexivity|]. cbn [append]. now rewrite IH.
Qed.
Lemma read_names_then : forall names rest ts, names <> [] -> Forall plain names ->
  tokenize rest Nothing = Ok ts ->
  tokenize (join ", " names ++ String " " rest) Nothing = Ok (listing (unquoted names) ++ ts).
Proof.
  induction names as [|n names IH]; intros rest ts N F E; [contradiction|].
  inversion F as [|? ? F1 F2]; subst. destruct names as [|m names].
  - cbn [join unquoted map listing app]. now apply read_keyword.
  - rewrite join_cons by discriminate. rewrite !append_thrice.
    destruct (read_plain n (", " ++ join ", " (m :: names) ++ String " " rest)%string F1) as (w & <- & ->).
    cbn [append tokenize]. change (identifier_part ",") with false. cbn iota.
    change (begin ",") with ([Comma], Nothing). change (begin " ") with (@nil token, Nothing). cbn iota.
    rewrite (IH rest ts ltac:(discriminate) F2 E). cbn [bind app]. unfold unquoted. cbn [map].
    now rewrite (listing_cons (text w, false)) by discriminate.
Qed.

Lemma names_kept : forall names, names <> [] -> Forall plain names ->
  split_terminator ";" (join ";" names) = names.
Proof.
  intros names N F. apply split_terminator_join.
  - eapply Forall_impl; [|exact F]. intros n Hn. now apply plain_char.
  - intros _. destruct (exists_last N) as (l & n & ->). rewrite last_last.
    apply Forall_app in F. destruct F as (_ & F). inversion F as [|? ? (c & s & -> & _)]. discriminate.
Qed.

(** What is sent is read as it is meant. *)
Lemma sent_read : forall names retention, readable names ->
  (forall z, retention = Some z -> 0 <= z <= max_retention)%Z ->
  parse_sql (sent_text names retention) = Ok (Vacuum names retention false).
Proof.
  intros names [z|] (N & F & K) R; cbn [sent_text]; [|now apply vacuum_text].
  specialize (R z eq_refl). unfold parse_sql.
  change ("VACUUM " ++ join ", " names ++ " RETAIN " ++ show z)%string
    with ("VACUUM" ++ String " " (join ", " names ++ String " " ("RETAIN" ++ String " " (show z))))%string.
  rewrite (read_keyword "VACUUM" _
             (listing (unquoted names) ++ [Word "RETAIN" false; Number (decimal 20 z [])])).
  - cbn [bind]. apply accepted_vacuum. exists (unquoted names). split.
    + exists (Word "VACUUM" false), [], [Word "RETAIN" false; Number (decimal 20 z [])], [].
      split; [now exists "VACUUM"%string|]. split; [reflexivity|]. split.
      { exists (Word "RETAIN" false), (decimal 20 z []). split; [reflexivity|].
        split; [now exists "RETAIN"%string|]. split; [|exact (proj2 R)].
        apply parse_u64_iff; [exact (proj2 R)|]. apply decimal_parsed.
        split; [lia|]. destruct R as (_ & R). eapply Z.le_lt_trans; [exact R|]. reflexivity. }
      split; [constructor|].
      split; [intros _; apply unquoted_not_first; intros n l E; now apply (K n l)|].
      split; [apply unquoted_not_first; intros n l E; now apply (K n l)|]. now rewrite app_nil_r.
    + rewrite unquoted_fst. symmetry. now apply names_kept.
  - apply plain_keyword.
  - apply read_names_then; [exact N|exact F|]. apply read_keyword; [apply plain_keyword|].
    apply read_number; [now apply decimal_not_empty|]. apply decimal_digits; [lia|constructor].
Qed.

(** What a client writes is read. *)
Lemma written_read : forall sql written retention, vacuums_cluster sql written retention ->
  exists names, parse_sql sql = Ok (Vacuum names retention true)
    /\ names = split_terminator ";" (join ";" (map fst written))
    /\ (0 <= period retention <= max_retention)%Z
    /\ (forall z, retention = Some z -> 0 <= z <= max_retention)%Z.
Proof.
  intros sql written retention (tokens & T & V). eexists. split.
  - unfold parse_sql. rewrite T. cbn [bind]. apply accepted_vacuum. exists written.
    split; [exact V|reflexivity].
  - destruct V as (k & c & r & s & _ & _ & R & _). pose proof (retention_bounds _ _ R) as B.
    split; [reflexivity|]. split.
    + destruct retention as [z|]; [exact B|]. split; now vm_compute.
    + intros z ->. exact B.
Qed.
Lemma meant : forall (written : list (string * bool)) db, Forall plain (tables_meant written db) ->
  tables_meant written db <> [] ->
  match split_terminator ";" (join ";" (map fst written)) with
  | [] => map fst db
  | _ => split_terminator ";" (join ";" (map fst written))
  end = tables_meant written db.
Proof.
  intros [|w written] db F N; [reflexivity|]. cbn [tables_meant] in *. rewrite names_kept by assumption.
  now destruct w.
Qed.

(** Vacuuming the tables of one data folder. *)
Lemma each_period : forall retention names db, (0 <= period retention <= max_retention)%Z ->
  carried_out names (cleaned (period retention)) db (fst (each (vacuum_table retention) names db))
    (snd (each (vacuum_table retention) names db)).
Proof.
  intros retention names db H. destruct names as [|n names].
  - exists [], []. cbn [each fst snd app]. split; [reflexivity|]. split; [intros x []|].
    split; [|now left]. intros x. now destruct (lookup x db).
  - change (period retention) with (period_of retention) in *.
    exact (vacuum_carried_out (n :: names) retention db H).
Qed.
Lemma each_at_most : forall retention names db, (0 <= period retention <= max_retention)%Z ->
  at_most names (period retention) db (fst (each (vacuum_table retention) names db)).
Proof.
  intros retention names db H. destruct (each_period retention names db H) as (bef & aft & E & _ & A & _).
  intros x. rewrite (A x). destruct (lookup x db) as [t|] eqn:L; [|now left].
  destruct (in_dec string_dec x bef) as [I|I]; [|now left]. right. split.
  - rewrite E. apply in_or_app. now left.
  - exists t. now split.
Qed.
Lemma cleaned_exists : forall names seconds db db' x, affects names (cleaned seconds) db db' ->
  lookup x db <> None -> lookup x db' <> None.
Proof.
  intros names seconds db db' x A L. rewrite (A x). destruct (lookup x db); [|contradiction].
  now destruct (in_dec string_dec x names).
Qed.
Lemma each_done : forall retention names db, (0 <= period retention <= max_retention)%Z ->
  exist names db -> exists db', each (vacuum_table retention) names db = (db', Ok tt)
    /\ affects names (cleaned (period retention)) db db'.
Proof.
  intros retention names db H Ex. destruct (each_period retention names db H) as (bef & aft & E & _ & A & C).
  destruct (each (vacuum_table retention) names db) as (db', r). cbn [fst snd] in *.
  destruct C as [(-> & ->)|(-> & x & rest & -> & L)].
  - exists db'. split; [reflexivity|]. rewrite app_nil_r in E. now subst bef.
  - exfalso. apply (cleaned_exists _ _ _ _ x A); [|exact L]. apply Ex. rewrite E.
    apply in_or_app. right. now left.
Qed.
Lemma at_most_refl : forall names seconds db, at_most names seconds db db.
Proof. intros names seconds db x. now left. Qed.
Lemma at_most_trans : forall names seconds a b c, at_most names seconds a b ->
  at_most names seconds b c -> at_most names seconds a c.
Proof.
  intros names seconds a b c A B x. destruct (A x) as [Ea|(I & t & La & Ea)].
  - destruct (B x) as [Eb|(I & t & Lb & Eb)]; [left; congruence|].
    right. split; [exact I|]. exists t. split; [congruence|exact Eb].
  - right. split; [exact I|]. exists t. split; [exact La|]. unfold cleaned in *.
    destruct (B x) as [Eb|(_ & t' & Lb & Eb)]; [congruence|].
    assert (t' = Table (definition t) (used t) (filter (fun f => (snd f <=? seconds)%Z) (stale t)))
      as -> by congruence.
    rewrite Eb. unfold cleaned. cbn [definition used stale]. now rewrite filter_twice.
Qed.

Section Proofs.
Variable order : list nat -> list nat.
Variable late : nat -> bool.
Hypothesis order_permutes : forall l, Permutation l (order l).

(** A node that reads what is meant changes only its own tables. *)
Lemma peer_step : forall fuel names retention c u, readable names ->
  (0 <= period retention <= max_retention)%Z ->
  (forall z, retention = Some z -> 0 <= z <= max_retention)%Z ->
  do_get order late (S fuel) (sent_text names retention) c u
  = match node c u with
    | Some db => let (db', r) := each (vacuum_table retention) names db in
                 (with_node c u db', Answered r, [])
    | None => (c, Answered Err, [])
    end.
Proof.
  intros fuel names retention c u N H R. cbn [do_get]. rewrite (sent_read names retention N R).
  unfold vacuum_locally. destruct (node c u) as [db|]; [|reflexivity]. destruct N as (N & _).
  destruct names as [|n names]; [contradiction|].
  destruct (each (vacuum_table retention) (n :: names) db) as (db', r). reflexivity.
Qed.

(** What nodes may look like after some of them have vacuumed their tables. *)
Definition safe (names : list string) (seconds : Z) (P : nat -> Prop) (c c' : cluster) : Prop :=
  listed c' = listed c /\ remote c' = remote c
  /\ forall w, match node c w with
               | Some db => exists db', node c' w = Some db' /\ at_most names seconds db db'
                              /\ (~ P w -> db' = db)
               | None => node c' w = None
               end.
Lemma safe_refl : forall names seconds P c, safe names seconds P c c.
Proof.
  intros names seconds P c. split; [reflexivity|]. split; [reflexivity|]. intros w.
  destruct (node c w) as [db|]; [|reflexivity]. exists db. split; [reflexivity|].
  split; [apply at_most_refl|reflexivity].
Qed.
Lemma safe_trans : forall names seconds (P : nat -> Prop) a b c, safe names seconds P a b ->
  safe names seconds P b c -> safe names seconds P a c.
Proof.
  intros names seconds P a b c (A1 & A2 & A3) (B1 & B2 & B3). split; [congruence|]. split; [congruence|].
  intros w. specialize (A3 w). specialize (B3 w). destruct (node a w) as [db|].
  - destruct A3 as (db' & E & M & O). rewrite E in B3. destruct B3 as (db'' & E' & M' & O').
    exists db''. split; [exact E'|]. split; [now apply (at_most_trans _ _ _ db')|].
    intros X. rewrite (O' X). now apply O.
  - now rewrite A3 in B3.
Qed.
Lemma safe_weaken : forall names seconds (P Q : nat -> Prop) a b, (forall w, P w -> Q w) ->
  safe names seconds P a b -> safe names seconds Q a b.
Proof.
  intros names seconds P Q a b I (A1 & A2 & A3). split; [exact A1|]. split; [exact A2|]. intros w.
  specialize (A3 w). destruct (node a w) as [db|]; [|exact A3]. destruct A3 as (db' & E & M & O).
  exists db'. split; [exact E|]. split; [exact M|]. intros X. apply O. intros Y. apply X. now apply I.
Qed.
Lemma safe_node : forall names retention c u db, (0 <= period retention <= max_retention)%Z ->
  node c u = Some db ->
  safe names (period retention) (eq u) c
    (with_node c u (fst (each (vacuum_table retention) names db))).
Proof.
  intros names retention c u db H E. split; [reflexivity|]. split; [reflexivity|]. intros w.
  cbn [with_node node]. destruct (Nat.eqb_spec w u) as [->|N].
  - rewrite E. eexists. split; [reflexivity|]. split; [now apply each_at_most|]. intros X.
    now exfalso; apply X.
  - destruct (node c w) as [db0|]; [|reflexivity]. exists db0. split; [reflexivity|].
    split; [apply at_most_refl|reflexivity].
Qed.
Lemma peer_safe : forall fuel names retention c p c' a sent, readable names ->
  (0 <= period retention <= max_retention)%Z ->
  (forall z, retention = Some z -> 0 <= z <= max_retention)%Z ->
  do_get order late (S fuel) (sent_text names retention) c p = (c', a, sent) ->
  sent = [] /\ (exists r, a = Answered r /\ r <> Panic) /\ safe names (period retention) (eq p) c c'.
Proof.
  intros fuel names retention c p c' a sent N H R E. rewrite peer_step in E by assumption.
  destruct (node c p) as [db|] eqn:D.
  - pose proof (safe_node names retention c p db H D) as S.
    destruct (each_period retention names db H) as (bef & aft & _ & _ & _ & C).
    destruct (each (vacuum_table retention) names db) as (db', r). cbn [fst snd] in *.
    injection E as <- <- <-. split; [reflexivity|]. split; [|exact S]. exists r. split; [reflexivity|].
    destruct C as [(-> & _)|(-> & _)]; discriminate.
  - injection E as <- <- <-. split; [reflexivity|]. split; [|apply safe_refl].
    exists Err. split; [reflexivity|discriminate].
Qed.

Lemma afterwards_safe : forall fuel names retention peers c c' sent, readable names ->
  (0 <= period retention <= max_retention)%Z ->
  (forall z, retention = Some z -> 0 <= z <= max_retention)%Z ->
  afterwards late (do_get order late (S fuel) (sent_text names retention))
    (sent_text names retention) peers c = (c', sent) ->
  safe names (period retention) (fun w => In w peers) c c'
  /\ exists ps, sent = map (fun p => (p, sent_text names retention)) ps /\ incl ps peers
       /\ (NoDup peers -> NoDup ps).
Proof.
  intros fuel names retention peers. set (text := sent_text names retention).
  induction peers as [|p peers IH]; intros c c' sent N H R E.
  - cbn [afterwards] in E. injection E as <- <-. split; [apply safe_refl|]. exists [].
    split; [reflexivity|]. split; [apply incl_refl|auto].
  - cbn [afterwards] in E. destruct (late p).
    + destruct (do_get order late (S fuel) text c p) as ((c1, a), s) eqn:D.
      destruct (peer_safe _ _ _ _ _ _ _ _ N H R D) as (-> & _ & S1).
      destruct (afterwards _ _ _ peers c1) as (c2, more) eqn:A. injection E as <- <-.
      destruct (IH c1 c2 more N H R A) as (S2 & ps & -> & I & ND). split.
      * apply (safe_trans _ _ _ _ c1).
        -- apply (safe_weaken _ _ (eq p)); [|exact S1]. intros w <-. now left.
        -- apply (safe_weaken _ _ (fun w => In w peers)); [|exact S2]. intros w W. now right.
      * exists (p :: ps). split; [reflexivity|]. split.
        -- intros w [<-|W]; [now left|right; now apply I].
        -- intros X. inversion X as [|? ? X1 X2]; subst. constructor; [|now apply ND].
           intros Y. apply X1. now apply I.
    + destruct (IH c c' sent N H R E) as (S2 & ps & -> & I & ND). split.
      * apply (safe_weaken _ _ (fun w => In w peers)); [|exact S2]. intros w W. now right.
      * exists ps. split; [reflexivity|]. split; [intros w W; right; now apply I|].
        intros X. inversion X; subst. now apply ND.
Qed.
Lemma peers_safe : forall fuel names retention peers c c' a sent, readable names ->
  (0 <= period retention <= max_retention)%Z ->
  (forall z, retention = Some z -> 0 <= z <= max_retention)%Z ->
  cluster_do_get late (do_get order late (S fuel) (sent_text names retention))
    (sent_text names retention) peers c = (c', a, sent) ->
  (exists r, a = Answered r) /\ safe names (period retention) (fun w => In w peers) c c'
  /\ exists ps, sent = map (fun p => (p, sent_text names retention)) ps /\ incl ps peers
       /\ (NoDup peers -> NoDup ps).
Proof.
  intros fuel names retention peers. set (text := sent_text names retention).
  induction peers as [|p peers IH]; intros c c' a sent N H R E.
  - cbn [cluster_do_get] in E. injection E as <- <- <-. split; [now eexists|].
    split; [apply safe_refl|]. exists [].
    split; [reflexivity|]. split; [apply incl_refl|auto].
  - cbn [cluster_do_get] in E.
    destruct (do_get order late (S fuel) text c p) as ((c1, a1), s) eqn:D.
    destruct (peer_safe _ _ _ _ _ _ _ _ N H R D) as (-> & (r & -> & _) & S1).
    assert (W1 : safe names (period retention) (fun w => In w (p :: peers)) c c1).
    { apply (safe_weaken _ _ (eq p)); [|exact S1]. intros w <-. now left. }
    assert (G : forall c2 ps, safe names (period retention) (fun w => In w peers) c1 c2 ->
              incl ps peers -> (NoDup peers -> NoDup ps) ->
              safe names (period retention) (fun w => In w (p :: peers)) c c2
              /\ incl (p :: ps) (p :: peers) /\ (NoDup (p :: peers) -> NoDup (p :: ps))).
    { intros c2 ps S2 I ND. split; [|split].
      - apply (safe_trans _ _ _ _ c1); [exact W1|].
        apply (safe_weaken _ _ (fun w => In w peers)); [|exact S2]. intros w W. now right.
      - intros w [<-|W]; [now left|right; now apply I].
      - intros X. inversion X as [|? ? X1 X2]; subst. constructor; [|now apply ND].
        intros Y. apply X1. now apply I. }
    destruct r as [[]| |].
    + destruct (cluster_do_get _ _ _ peers c1) as ((c2, a2), more) eqn:A. injection E as <- <- <-.
      destruct (IH c1 c2 a2 more N H R A) as (Ra & S2 & ps & -> & I & ND). split; [exact Ra|].
      destruct (G c2 ps S2 I ND) as (G1 & G2 & G3). split; [exact G1|]. exists (p :: ps). auto.
    + destruct (afterwards _ _ _ peers c1) as (c2, more) eqn:A. injection E as <- <- <-.
      destruct (afterwards_safe _ _ _ _ _ _ _ N H R A) as (S2 & ps & -> & I & ND). split; [now eexists|].
      destruct (G c2 ps S2 I ND) as (G1 & G2 & G3). split; [exact G1|]. exists (p :: ps). auto.
    + destruct (afterwards _ _ _ peers c1) as (c2, more) eqn:A. injection E as <- <- <-.
      destruct (afterwards_safe _ _ _ _ _ _ _ N H R A) as (S2 & ps & -> & I & ND). split; [now eexists|].
      destruct (G c2 ps S2 I ND) as (G1 & G2 & G3). split; [exact G1|]. exists (p :: ps). auto.
Qed.

Lemma peers_are : forall c u w, In w (peer_nodes c u) <-> In w (listed c) /\ w <> u.
Proof.
  intros c u w. unfold peer_nodes. rewrite filter_In, negb_true_iff, Nat.eqb_neq. reflexivity.
Qed.
Lemma order_in : forall l w, In w (order l) <-> In w l.
Proof.
  intros l w. split; apply Permutation_in; [apply Permutation_sym|]; apply order_permutes.
Qed.
Lemma order_nodup : forall l, NoDup l -> NoDup (order l).
Proof. intros l. apply Permutation_NoDup, order_permutes. Qed.

(** Whatever the nodes look like. *)
Lemma bounded : forall fuel sql written retention c u db, (2 <= fuel)%nat -> NoDup (listed c) ->
  vacuums_cluster sql written retention -> node c u = Some db ->
  readable (tables_meant written db) ->
  exists c' r sent, do_get order late fuel sql c u = (c', Answered r, sent)
    /\ at_most_once c u sent
    /\ nothing_else c u (tables_meant written db) (period retention) c'.
Proof.
  intros fuel sql written retention c u db Hf ND V D N.
  destruct (written_read _ _ _ V) as (names0 & P & Q & H & R).
  destruct fuel as [|[|fuel]]; [lia|lia|].
  remember (S fuel) as f eqn:Ef. cbn [do_get]. subst f. rewrite D, P.
  rewrite Q, (meant written db) by (apply N). set (names := tables_meant written db) in *.
  pose proof (each_at_most retention names (remote c) H) as M.
  destruct (each (vacuum_table retention) names (remote c)) as (rdb, rr). cbn [fst] in M.
  assert (Fin : forall c1 r (sent : messages), listed c1 = listed c -> remote c1 = rdb ->
            NoDup (map fst sent) -> (forall w, In w (map fst sent) -> In w (listed c) /\ w <> u) ->
            safe names (period retention) (concerned c u) (with_remote c rdb) c1 ->
            exists c' r' sent', (c1, Answered r, sent) = (c', Answered r', sent')
              /\ at_most_once c u sent' /\ nothing_else c u names (period retention) c').
  { intros c1 r sent L1 R1 N1 I1 (_ & _ & S3). exists c1, r, sent. split; [reflexivity|].
    split; [now split|]. split; [exact L1|]. split; [now rewrite R1|].
    intros w. exact (S3 w). }
  destruct rr as [[]| |].
  - set (text := sent_text names retention) in *.
    set (c0 := with_remote c rdb) in *.
    destruct (cluster_do_get late (do_get order late (S fuel) text) text (order (peer_nodes c0 u)) c0)
      as ((c1, a1), sent) eqn:E.
    destruct (peers_safe _ _ _ _ _ _ _ _ N H R E) as ((r1 & ->) & S1 & ps & -> & I & Nd).
    assert (K1 : forall w, In w (order (peer_nodes c0 u)) -> In w (listed c) /\ w <> u).
    { intros w W. rewrite order_in in W. now apply peers_are in W. }
    assert (S1' : safe names (period retention) (concerned c u) c0 c1).
    { apply (safe_weaken _ _ (fun w => In w (order (peer_nodes c0 u)))); [|exact S1].
      intros w W. right. now apply K1. }
    assert (F1 : map fst (map (fun p => (p, text)) ps) = ps).
    { rewrite map_map. apply map_id. }
    assert (N1 : NoDup (map fst (map (fun p => (p, text)) ps))).
    { rewrite F1. apply Nd, order_nodup. unfold peer_nodes. apply NoDup_filter. exact ND. }
    assert (I1 : forall w, In w (map fst (map (fun p => (p, text)) ps)) -> In w (listed c) /\ w <> u).
    { intros w W. rewrite F1 in W. apply K1. now apply I. }
    destruct S1' as (L1 & R1 & S3).
    destruct r1 as [[]| |].
    + unfold vacuum_locally. pose proof (S3 u) as Su. cbn [c0 with_remote node] in Su. rewrite D in Su.
      destruct Su as (db1 & D1 & _). rewrite D1.
      pose proof (safe_node names retention c1 u db1 H D1) as Sn.
      destruct (each (vacuum_table retention) names db1) as (db2, r2). cbn [fst] in Sn.
      apply Fin; [exact L1|exact R1|exact N1|exact I1|].
      apply (safe_trans _ _ _ _ c1); [split; [exact L1|split; [exact R1|exact S3]]|].
      apply (safe_weaken _ _ (eq u)); [|exact Sn]. intros w <-. now left.
    + apply Fin; [exact L1|exact R1|exact N1|exact I1|]. split; [exact L1|]. split; [exact R1|exact S3].
    + apply Fin; [exact L1|exact R1|exact N1|exact I1|]. split; [exact L1|]. split; [exact R1|exact S3].
  - apply Fin; [reflexivity|reflexivity|constructor|intros w []|apply safe_refl].
  - apply Fin; [reflexivity|reflexivity|constructor|intros w []|apply safe_refl].
Qed.

(** All nodes have the tables. *)
Lemma peers_done : forall fuel names retention peers c, readable names ->
  (0 <= period retention <= max_retention)%Z ->
  (forall z, retention = Some z -> 0 <= z <= max_retention)%Z -> NoDup peers ->
  (forall w, In w peers -> exists db, node c w = Some db /\ exist names db) ->
  exists c', cluster_do_get late (do_get order late (S fuel) (sent_text names retention))
               (sent_text names retention) peers c
             = (c', Answered (Ok tt), map (fun p => (p, sent_text names retention)) peers)
    /\ listed c' = listed c /\ remote c' = remote c
    /\ (forall w, In w peers -> exists db db', node c w = Some db /\ node c' w = Some db'
          /\ affects names (cleaned (period retention)) db db')
    /\ (forall w, ~ In w peers -> node c' w = node c w).
Proof.
  intros fuel names retention peers. induction peers as [|p peers IH]; intros c N H R ND Ex.
  - exists c. cbn [cluster_do_get]. split; [reflexivity|]. split; [reflexivity|].
    split; [reflexivity|]. split; [intros w []|reflexivity].
  - inversion ND as [|? ? ND1 ND2]; subst. cbn [cluster_do_get]. rewrite peer_step by assumption.
    destruct (Ex p (or_introl eq_refl)) as (db & D & X). rewrite D.
    destruct (each_done retention names db H X) as (db' & -> & A).
    destruct (IH (with_node c p db') N H R ND2) as (c' & E & L & Rm & Y1 & Y2).
    { intros w W. destruct (Ex w (or_intror W)) as (d & Dw & Xw). exists d. split; [|exact Xw].
      cbn [with_node node]. destruct (Nat.eqb_spec w p) as [->|]; [contradiction|exact Dw]. }
    rewrite E. exists c'. split; [reflexivity|]. split; [exact L|]. split; [exact Rm|]. split.
    + intros w [<-|W].
      * exists db, db'. split; [exact D|]. split; [|exact A]. rewrite Y2 by exact ND1.
        cbn [with_node node]. now rewrite Nat.eqb_refl.
      * destruct (Y1 w W) as (a & b & Ea & Eb & Z). exists a, b. split; [|now split].
        cbn [with_node node] in Ea. destruct (Nat.eqb_spec w p) as [->|]; [contradiction|exact Ea].
    + intros w W. rewrite Y2 by (intros Y; apply W; now right). cbn [with_node node].
      destruct (Nat.eqb_spec w p) as [->|]; [exfalso; apply W; now left|reflexivity].
Qed.
Lemma done_everywhere : forall fuel sql written retention c u db, (2 <= fuel)%nat ->
  NoDup (listed c) -> vacuums_cluster sql written retention -> node c u = Some db ->
  readable (tables_meant written db) -> ready c u (tables_meant written db) ->
  exists c' sent, do_get order late fuel sql c u = (c', Answered (Ok tt), sent)
    /\ vacuumed_everywhere c u (tables_meant written db) (period retention) c'
    /\ once_each c u sent.
Proof.
  intros fuel sql written retention c u db Hf ND V D N (X1 & X2).
  destruct (written_read _ _ _ V) as (names0 & P & Q & H & R).
  destruct fuel as [|[|fuel]]; [lia|lia|].
  remember (S fuel) as f eqn:Ef. cbn [do_get]. subst f. rewrite D, P.
  rewrite Q, (meant written db) by (apply N). set (names := tables_meant written db) in *.
  destruct (each_done retention names (remote c) H X1) as (rdb & -> & Ar).
  set (c0 := with_remote c rdb). set (peers := order (peer_nodes c0 u)).
  assert (K : forall w, In w peers <-> In w (listed c) /\ w <> u).
  { intros w. unfold peers. rewrite order_in. exact (peers_are c0 u w). }
  assert (Np : NoDup peers).
  { apply order_nodup. unfold peer_nodes. apply NoDup_filter. exact ND. }
  destruct (peers_done fuel names retention peers c0 N H R Np) as (c1 & E & L & Rm & Y1 & Y2).
  { intros w W. apply X2. right. now apply K. }
  rewrite E. cbn iota. unfold vacuum_locally.
  assert (Nu : ~ In u peers) by (rewrite K; intros (_ & Y); now apply Y).
  rewrite Y2 by exact Nu. cbn [c0 with_remote node]. rewrite D.
  destruct (X2 u (or_introl eq_refl)) as (db0 & D0 & X). assert (db0 = db) as -> by congruence.
  destruct (each_done retention names db H X) as (db' & -> & A).
  eexists _, _. split; [reflexivity|]. split.
  - split; [exact L|]. split; [cbn [with_node remote]; rewrite Rm; exact Ar|]. cbn [with_node node]. split.
    + intros w W. destruct (Nat.eqb_spec w u) as [->|Nw].
      * exists db, db'. auto.
      * destruct W as [W|W]; [contradiction|]. apply Y1. now apply K.
    + intros w W. destruct (Nat.eqb_spec w u) as [->|Nw]; [exfalso; apply W; now left|].
      rewrite Y2; [reflexivity|]. intros Y. apply W. right. now apply K.
  - unfold once_each. assert (map fst (map (fun p => (p, sent_text names retention)) peers) = peers)
      as -> by (rewrite map_map; apply map_id). split; [exact Np|exact K].
Qed.

(** It is only answered with success if all nodes have the tables. *)
Lemma each_exist : forall retention names db db', (0 <= period retention <= max_retention)%Z ->
  each (vacuum_table retention) names db = (db', Ok tt) -> exist names db.
Proof.
  intros retention names db db' H E. destruct (each_period retention names db H) as (bef & aft & En & B & _ & C).
  rewrite E in C. cbn [snd] in C. destruct C as [(_ & ->)|(X & _)]; [|discriminate X].
  rewrite app_nil_r in En. subst bef. exact B.
Qed.
Lemma peers_exist : forall fuel names retention peers c c' sent, readable names ->
  (0 <= period retention <= max_retention)%Z ->
  (forall z, retention = Some z -> 0 <= z <= max_retention)%Z -> NoDup peers ->
  cluster_do_get late (do_get order late (S fuel) (sent_text names retention))
    (sent_text names retention) peers c = (c', Answered (Ok tt), sent) ->
  forall w, In w peers -> exists db, node c w = Some db /\ exist names db.
Proof.
  intros fuel names retention peers. induction peers as [|p peers IH]; intros c c' sent N H R ND E w W; [contradiction W|].
  inversion ND as [|? ? ND1 ND2]; subst. cbn [cluster_do_get] in E. rewrite peer_step in E by assumption.
  destruct (node c p) as [db|] eqn:D.
  - destruct (each (vacuum_table retention) names db) as (db', r) eqn:A.
    destruct r as [[]| |].
    + destruct (cluster_do_get _ _ _ peers _) as ((c2, a2), more) eqn:G. injection E as <- -> <-.
      destruct W as [<-|W]; [exists db; split; [exact D|exact (each_exist _ _ _ _ H A)]|].
      destruct (IH _ _ _ N H R ND2 G w W) as (d & Dw & X). exists d. split; [|exact X].
      cbn [with_node node] in Dw. destruct (Nat.eqb_spec w p) as [->|]; [contradiction|exact Dw].
    + destruct (afterwards _ _ _ peers _) as (c2, more). discriminate E.
    + destruct (afterwards _ _ _ peers _) as (c2, more). discriminate E.
  - destruct (afterwards _ _ _ peers _) as (c2, more). discriminate E.
Qed.
Lemma success : forall fuel sql written retention c u db c' sent, (2 <= fuel)%nat ->
  NoDup (listed c) -> vacuums_cluster sql written retention -> node c u = Some db ->
  readable (tables_meant written db) ->
  do_get order late fuel sql c u = (c', Answered (Ok tt), sent) ->
  ready c u (tables_meant written db)
  /\ vacuumed_everywhere c u (tables_meant written db) (period retention) c'
  /\ once_each c u sent.
Proof.
  intros fuel sql written retention c u db c' sent Hf ND V D N E.
  assert (X : ready c u (tables_meant written db)).
  { destruct (written_read _ _ _ V) as (names0 & P & Q & H & R).
    destruct fuel as [|[|fuel]]; [lia|lia|].
    remember (S fuel) as f eqn:Ef. cbn [do_get] in E. subst f. rewrite D, P in E.
    rewrite Q, (meant written db) in E by (apply N). set (names := tables_meant written db) in *.
    destruct (each (vacuum_table retention) names (remote c)) as (rdb, rr) eqn:A.
    destruct rr as [[]| |]; [|discriminate E|discriminate E].
    set (c0 := with_remote c rdb) in *. set (peers := order (peer_nodes c0 u)) in *.
    assert (K : forall w, In w peers <-> In w (listed c) /\ w <> u).
    { intros w. unfold peers. rewrite order_in. exact (peers_are c0 u w). }
    assert (Np : NoDup peers).
    { apply order_nodup. unfold peer_nodes. apply NoDup_filter. exact ND. }
    destruct (cluster_do_get late (do_get order late (S fuel) (sent_text names retention)) (sent_text names retention) peers c0)
      as ((c1, a1), s1) eqn:G.
    destruct a1 as [[[]| |]|]; try discriminate E.
    pose proof (peers_exist fuel names retention peers c0 c1 s1 N H R Np G) as Y.
    destruct (peers_safe _ _ _ _ _ _ _ _ N H R G) as (_ & (_ & _ & S3) & _).
    split; [exact (each_exist _ _ _ _ H A)|]. intros w [->|W].
    - exists db. split; [exact D|]. unfold vacuum_locally in E.
      pose proof (S3 u) as Su. cbn [c0 with_remote node] in Su. rewrite D in Su.
      destruct Su as (db1 & D1 & _ & O). rewrite D1 in E.
      rewrite O in E by (rewrite K; intros (_ & Z); now apply Z).
      destruct (each (vacuum_table retention) names db) as (db2, r2) eqn:A2. injection E as _ -> _.
      exact (each_exist _ _ _ _ H A2).
    - destruct (Nat.eq_dec w u) as [->|Nw].
      + exists db. split; [exact D|]. unfold vacuum_locally in E.
        pose proof (S3 u) as Su. cbn [c0 with_remote node] in Su. rewrite D in Su.
        destruct Su as (db1 & D1 & _ & O). rewrite D1 in E.
        rewrite O in E by (rewrite K; intros (_ & Z); now apply Z).
        destruct (each (vacuum_table retention) names db) as (db2, r2) eqn:A2. injection E as _ -> _.
        exact (each_exist _ _ _ _ H A2).
      + apply Y. apply K. now split. }
  split; [exact X|].
  destruct (done_everywhere fuel sql written retention c u db Hf ND V D N X) as (c2 & sent2 & E2 & Y1 & Y2).
  rewrite E in E2. injection E2 as <- <-. now split.
Qed.

(** Nodes that send each other statements forever. *)
Definition looping (t : string) (c : cluster) : Prop :=
  (forall w, In w (listed c) -> exists db, node c w = Some db /\ map fst db = [t])
  /\ lookup t (remote c) <> None
  /\ exists v w, In v (listed c) /\ In w (listed c) /\ v <> w.
Lemma each_remote : forall t db, lookup t db <> None ->
  exists db', each (vacuum_table None) [t] db = (db', Ok tt) /\ lookup t db' <> None.
Proof.
  intros t db L. destruct (each_done None [t] db) as (db' & E & A).
  - split; now vm_compute.
  - intros x [<-|[]]. exact L.
  - exists db'. split; [exact E|]. now apply (cleaned_exists _ _ _ _ t A).
Qed.
Lemma forever : forall t, parse_sql ("VACUUM " ++ t) = Ok (Vacuum [] None true) ->
  forall fuel sql c u db, parse_sql sql = Ok (Vacuum [] None true) -> looping t c ->
  node c u = Some db -> map fst db = [t] ->
  exists c' sent, do_get order late fuel sql c u = (c', Unanswered, sent) /\ length sent = fuel.
Proof.
  intros t Pt. induction fuel as [|fuel IH]; intros sql c u db P (L1 & L2 & v & w & Lv & Lw & Nvw) D T.
  - exists c, []. now split.
  - cbn [do_get]. rewrite D, P, T.
    destruct (each_remote t (remote c) L2) as (rdb & -> & L3).
    set (c0 := with_remote c rdb).
    assert (exists p ps, order (peer_nodes c0 u) = p :: ps) as (p & ps & Ep).
    { destruct (order (peer_nodes c0 u)) as [|p ps] eqn:E; [|now exists p, ps]. exfalso.
      destruct (Nat.eq_dec v u) as [->|Nv].
      - assert (I : In w (order (peer_nodes c0 u))).
        { apply order_in. apply peers_are. split; [exact Lw|congruence]. }
        rewrite E in I. destruct I.
      - assert (I : In v (order (peer_nodes c0 u))).
        { apply order_in. apply peers_are. now split. }
        rewrite E in I. destruct I. }
    rewrite Ep. cbn [cluster_do_get sent_text join].
    assert (Ip : In p (listed c)).
    { assert (I : In p (order (peer_nodes c0 u))) by (rewrite Ep; now left).
      apply (proj1 (order_in _ _)) in I. now apply (proj1 (peers_are c0 u p)) in I. }
    destruct (L1 p Ip) as (dbp & Dp & Tp).
    destruct (IH ("VACUUM " ++ t)%string c0 p dbp Pt) as (c' & sent & E & Len).
    { split; [exact L1|]. split; [exact L3|]. now exists v, w. }
    { exact Dp. }
    { exact Tp. }
    rewrite E. cbn iota. eexists _, _. split; [reflexivity|]. cbn [length]. now rewrite Len.
Qed.
End Proofs.

Lemma storm : forall order late reserved n u fuel, (forall l, Permutation l (order l)) ->
  reserved "CLUSTER;" = false -> (2 <= n)%nat -> (1 <= u <= n)%nat ->
  let db := history reserved [Create "cluster;" full] in
  exists c' sent, do_get order late fuel "VACUUM CLUSTER" (alike n db) u = (c', Unanswered, sent)
    /\ length sent = fuel.
Proof.
  intros order late reserved n u fuel Po Re Hn Hu db.
  assert (E : db = [("cluster;", full)]).
  { unfold db, history, step, create, create_name. cbn [fold_left].
    change (map_string to_upper (map_string to_lower "cluster;")) with "CLUSTER;". rewrite Re.
    reflexivity. }
  assert (A : forall w, (1 <= w <= n)%nat -> node (alike n db) w = Some db).
  { intros w Hw. cbn [alike node]. rewrite (proj2 (Nat.leb_le 1 w)), (proj2 (Nat.leb_le w n)) by lia.
    reflexivity. }
  apply (forever order late Po "cluster;" eq_refl fuel "VACUUM CLUSTER" (alike n db) u db).
  - reflexivity.
  - split; [|split].
    + intros w W. cbn [alike listed] in W. apply in_seq in W. exists db. split; [apply A; lia|].
      now rewrite E.
    + cbn [alike remote]. rewrite E. discriminate.
    + exists 1, 2. cbn [alike listed]. split; [apply in_seq; lia|]. split; [apply in_seq; lia|discriminate].
  - now apply A.
  - now rewrite E.
Qed.


Lemma same_order : forall (order : list nat -> list nat) x, (forall l, Permutation l (order l)) ->
  order [x] = [x].
Proof. intros order x H. apply Permutation_length_1_inv, H. Qed.

Lemma comma : forall order late reserved, (forall l, Permutation l (order l)) ->
  (forall x, reserved x = false) ->
  let db := history reserved [Create "a,b" full; Create "a" full; Create "b" full] in
  let sql := "VACUUM CLUSTER ""a,b""" in
  vacuums_cluster sql [("a,b", true)] None
  /\ exists c' sent db', do_get order late 2 sql (alike 2 db) 1 = (c', Answered (Ok tt), sent)
       /\ lookup "a,b" (remote c') = cleaned 604800 full
       /\ node c' 2 = Some db' /\ lookup "a,b" db' = Some full /\ lookup "a" db' = cleaned 604800 full.
Proof.
  intros order late reserved Po Re db sql.
  assert (E : db = [("a,b", full); ("a", full); ("b", full)]).
  { unfold db, history, step, create, create_name. cbn [fold_left]. rewrite !Re. reflexivity. }
  split.
  - eexists. split; [reflexivity|]. exists (Word "VACUUM" false), [Word "CLUSTER" false], [], [].
    split; [now exists "VACUUM"|]. split; [exists (Word "CLUSTER" false); split; [reflexivity|now exists "CLUSTER"]|].
    split; [reflexivity|]. split; [constructor|]. split; [intros X; discriminate|].
    split; [|reflexivity]. intros (v & X & _). discriminate.
  - rewrite E. pose proof (same_order order 2 Po) as O. eexists _, _, _. split.
    + cbn. rewrite O. cbn. reflexivity.
    + repeat split.
Qed.

Lemma quoted : forall order late reserved, (forall l, Permutation l (order l)) ->
  (forall x, reserved x = false) ->
  let db := history reserved [Create "a-b" full] in
  let sql := "VACUUM CLUSTER" in
  vacuums_cluster sql [] None
  /\ exists c' sent, do_get order late 2 sql (alike 2 db) 1 = (c', Answered Err, sent)
       /\ lookup "a-b" (remote c') = cleaned 604800 full
       /\ node c' 1 = Some db /\ node c' 2 = Some db.
Proof.
  intros order late reserved Po Re db sql.
  assert (E : db = [("a-b", full)]).
  { unfold db, history, step, create, create_name. cbn [fold_left]. rewrite !Re. reflexivity. }
  split.
  - eexists. split; [reflexivity|]. exists (Word "VACUUM" false), [Word "CLUSTER" false], [], [].
    split; [now exists "VACUUM"|]. split; [exists (Word "CLUSTER" false); split; [reflexivity|now exists "CLUSTER"]|].
    split; [reflexivity|]. split; [constructor|]. split; [intros X; discriminate|].
    split; [exact I|reflexivity].
  - rewrite E. pose proof (same_order order 2 Po) as O. eexists _, _. split.
    + cbn. rewrite O. cbn. reflexivity.
    + repeat split.
Qed.

Lemma stopped : forall order late reserved, (forall l, Permutation l (order l)) ->
  (forall x, reserved x = false) ->
  let db := history reserved [Create "wind" full] in
  let sql := "VACUUM CLUSTER wind" in
  vacuums_cluster sql [("wind", false)] None /\ readable ["wind"]
  /\ exists c' sent, do_get order late 2 sql (Cluster db [1; 2] (node (alike 1 db))) 1
                     = (c', Answered Err, sent)
       /\ lookup "wind" (remote c') = cleaned 604800 full /\ node c' 1 = Some db.
Proof.
  intros order late reserved Po Re db sql.
  assert (E : db = [("wind", full)]).
  { unfold db, history, step, create, create_name. cbn [fold_left]. rewrite !Re. reflexivity. }
  split; [|split].
  - eexists. split; [reflexivity|]. exists (Word "VACUUM" false), [Word "CLUSTER" false], [], [].
    split; [now exists "VACUUM"|]. split; [exists (Word "CLUSTER" false); split; [reflexivity|now exists "CLUSTER"]|].
    split; [reflexivity|]. split; [constructor|]. split; [intros X; discriminate|].
    split; [|reflexivity]. intros (v & X & Y). injection X as <-. discriminate.
  - split; [discriminate|]. split; [repeat constructor; now apply plain_bool|].
    intros n l X. injection X as <- <-. split; discriminate.
  - rewrite E. pose proof (same_order order 2 Po) as O. eexists _, _. split.
    + cbn. rewrite O. cbn. reflexivity.
    + repeat split.
Qed.
