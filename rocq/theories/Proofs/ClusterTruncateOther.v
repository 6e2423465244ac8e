(** Other tables, and statements that succeed. *)
From Coq Require Import ZArith Bool String List Permutation Lia.
From Verif Require Import Model.Base Model.Sql Model.ClusterTruncate Spec.StatementSpec
  Spec.ClusterTruncateSpec Proofs.SqlProofs Proofs.ClusterTruncateProofs.
Import ListNotations.
Open Scope nat_scope.
Open Scope list_scope.

(** ** Other tables. *)

Section Other.
Variable t : string.

Lemma same_rows_refl : forall n, same_rows t n n.
Proof. intros n. split; reflexivity. Qed.
Lemma same_rows_trans : forall n m o, same_rows t n m -> same_rows t m o -> same_rows t n o.
Proof.
  intros n m o (A & B) (C & D). split; [now rewrite C|congruence].
Qed.
Lemma same_rows_saved : forall n s k, same_rows t n (saved n s k).
Proof.
  intros n s k. split; [|reflexivity]. cbn. unfold set_rows.
  destruct (String.eqb_spec t s) as [->|]; [|reflexivity].
  replace (memory n s ++ disk n s)
    with ((firstn k (memory n s) ++ skipn k (memory n s)) ++ disk n s) by (now rewrite firstn_skipn).
  rewrite app_assoc, (Permutation_app_comm (_ ++ disk n s)), app_assoc. reflexivity.
Qed.
Lemma same_rows_flushed : forall n, same_rows t n (flushed n).
Proof.
  intros n. apply (flush_invariant (same_rows t n)); [apply same_rows_refl|].
  intros m s k H. exact (same_rows_trans _ _ _ H (same_rows_saved m s k)).
Qed.
Lemma same_rows_performed : forall a ok n n' r, a <> Erase t -> perform a ok n = Some (n', r) ->
  same_rows t n n'.
Proof.
  intros a ok n n' r X H. destruct a as [s| |s|s|]; cbn in H.
  - destruct (member s (tables n)); [|injection H as <- <-; apply same_rows_refl].
    destruct (locked n); [discriminate|]. destruct (moving n) eqn:M; [discriminate|].
    injection H as <- <-. split; cbn; [reflexivity|congruence].
  - destruct ok; injection H as <- <-; [apply same_rows_flushed|apply same_rows_refl].
  - destruct (moving n) eqn:M; [discriminate|]. injection H as <- <-. split; cbn; [reflexivity|congruence].
  - destruct ok; injection H as <- <-; [|apply same_rows_refl]. split; cbn; [|reflexivity].
    rewrite set_other by congruence. reflexivity.
  - injection H as <- <-. apply same_rows_refl.
Qed.
Lemma same_rows_set : forall (f : nat -> node) u n v, same_rows t (f u) n ->
  same_rows t (f v) (set_node u n f v).
Proof.
  intros f u n v F. unfold set_node. destruct (Nat.eqb_spec v u) as [->|]; [exact F|].
  apply same_rows_refl.
Qed.

(** Nothing that is left to be done concerns the table. *)
Definition unconcerned (c : cluster) : Prop :=
  (forall p, In p (statements c) -> sendable (named (snd p)) /\ ~ In t (named (snd p))
     /\ match at_ (snd p) with Remotely l => ~ In t l | _ => True end)
  /\ forall j, In j (jobs c) -> ~ In (Erase t) (left j).

Lemma truncations_erase : forall ts, ~ In t ts -> ~ In (Erase t) (truncations ts).
Proof.
  intros ts N H. apply in_flat_map in H. destruct H as (s & Hs & H). cbn in H.
  destruct H as [H|[H|[H|[H|[]]]]]; try discriminate. injection H as ->. contradiction.
Qed.

Lemma unconcerned_ended : forall c i b, unconcerned c -> unconcerned (ended c i b).
Proof.
  intros c i b (A & B). unfold ended. destruct (statement_of i (statements c)); [|now split].
  split; cbn; [|exact B]. intros p Hp. apply filter_In in Hp. now apply A.
Qed.
Lemma unconcerned_proceeded : forall c i s p, unconcerned c -> sendable (named s) -> ~ In t (named s) ->
  match p with Remotely l => ~ In t l | _ => True end -> unconcerned (proceeded c i s p).
Proof.
  intros c i s p (A & B) H1 H2 H3. split; cbn; [|exact B]. intros q Hq. apply in_app_iff in Hq.
  destruct Hq as [Hq|[<-|[]]]; [|exact (conj H1 (conj H2 H3))]. apply filter_In in Hq. now apply A.
Qed.

Lemma unconcerned_step : forall c e, unconcerned c ->
  (forall u ts, e = Begin u ts -> sendable ts /\ ~ In t ts) -> unconcerned (step c e).
Proof.
  intros c e U H. pose proof U as (A & B).
  destruct e as [u s l|u s k|u s|u|u|u ts|i|i|k ok|k|u|u|u]; cbn [step].
  - destruct (_ && _); exact U.
  - destruct (_ && _); exact U.
  - destruct (moving (nodes c u)); [exact U|]. destruct (_ && _); exact U.
  - destruct (moving (nodes c u)) as [((s, l), [])|]; exact U.
  - destruct (moving (nodes c u)) as [((s, l), [])|]; exact U.
  - destruct (alive (nodes c u)); [|exact U]. destruct (H u ts eq_refl) as (H1 & H2).
    split; cbn; [|exact B]. intros p Hp. apply in_app_iff in Hp.
    destruct Hp as [Hp|[<-|[]]]; [now apply A|]. split; [exact H1|]. now split.
  - destruct (statement_of i (statements c)) as [s|] eqn:Es; [|exact U].
    destruct (A (i, s) (statement_in _ _ _ Es)) as (A1 & A2 & A3). cbn [snd] in *.
    destruct (at_ s) as [[|s' left']| |].
    + apply unconcerned_proceeded; auto. split; cbn; [exact A|]. intros j Hj. apply in_app_iff in Hj.
      destruct Hj as [Hj|Hj]; [now apply B|]. apply in_map_iff in Hj. destruct Hj as (w & <- & _).
      cbn. rewrite (sent_as_named _ A1). now apply truncations_erase.
    + destruct (member s' (remote_tables c)); [|now apply unconcerned_ended].
      apply unconcerned_proceeded; auto. intros X. apply A3. now right.
    + destruct (owned i c); [exact U|]. apply unconcerned_proceeded; auto. split; cbn; [exact A|].
      intros j Hj. apply in_app_iff in Hj. destruct Hj as [Hj|[<-|[]]]; [now apply B|].
      now apply truncations_erase.
    + destruct (owned i c); [exact U|]. now apply unconcerned_ended.
  - now apply unconcerned_ended.
  - destruct (nth_error (jobs c) k) as [[i w [|a l]]|] eqn:J; try exact U.
    + split; cbn; [exact A|]. intros j Hj. apply without_nth_in in Hj. now apply B.
    + destruct (alive (nodes c w)).
      * destruct (perform a ok (nodes c w)) as [(n, [])|]; [| |exact U].
        -- split; cbn; [exact A|]. intros j Hj. apply replace_nth_in in Hj.
           destruct Hj as [->|Hj]; [|now apply B]. cbn. intros X.
           apply (B _ (nth_error_In _ _ J)). now right.
        -- apply unconcerned_ended. split; cbn; [exact A|]. intros j Hj. apply without_nth_in in Hj.
           now apply B.
      * apply unconcerned_ended. split; cbn; [exact A|]. intros j Hj. apply without_nth_in in Hj.
        now apply B.
  - destruct (nth_error (jobs c) k) as [[i w l]|]; [|exact U].
    destruct (statement_of i (statements c)); [exact U|].
    assert (X : forall c', statements c' = statements c ->
              unconcerned (with_jobs c' (without_nth k (jobs c)))).
    { intros c' Ec. split; cbn; [now rewrite Ec|]. intros j Hj. apply without_nth_in in Hj. now apply B. }
    apply X. now destruct (holds_lock l).
  - split; cbn; [intros p Hp|intros j Hj]; [apply filter_In in Hp|apply filter_In in Hj];
      [now apply A|now apply B].
  - split; cbn; [intros p Hp|intros j Hj]; [apply filter_In in Hp|apply filter_In in Hj];
      [now apply A|now apply B].
  - destruct (alive (nodes c u)); exact U.
Qed.

Lemma unconcerned_run : forall es c, unconcerned c -> unnamed t es -> unconcerned (run c es).
Proof.
  induction es as [|e es IH]; intros c U N; [exact U|]. cbn. apply IH.
  - apply unconcerned_step; [exact U|]. intros u ts ->. apply (N u). now left.
  - intros u ts H. apply (N u). now right.
Qed.

Lemma step_unconcerned : forall c e, unconcerned c -> truncates e = true ->
  remote (step c e) t = remote c t /\ forall w, same_rows t (nodes c w) (nodes (step c e) w).
Proof.
  intros c e (A & B) H.
  assert (K : forall i b, remote (ended c i b) t = remote c t
            /\ forall w, same_rows t (nodes c w) (nodes (ended c i b) w)).
  { intros i b. destruct (ended_nodes c i b) as (E1 & E2 & _). rewrite E1, E2.
    split; [reflexivity|]. intros w. apply same_rows_refl. }
  assert (Z : remote c t = remote c t /\ forall w, same_rows t (nodes c w) (nodes c w)).
  { split; [reflexivity|]. intros w. apply same_rows_refl. }
  destruct e as [u s l|u s k|u s|u|u|u ts|i|i|k ok|k|u|u|u]; try discriminate; cbn [step].
  - destruct (alive (nodes c u)); exact Z.
  - destruct (statement_of i (statements c)) as [s|] eqn:Es; [|exact Z].
    destruct (A (i, s) (statement_in _ _ _ Es)) as (_ & _ & A3). cbn [snd] in *.
    destruct (at_ s) as [[|s' left']| |].
    + exact Z.
    + destruct (member s' (remote_tables c)); [|apply K]. split; [|apply Z]. cbn.
      apply set_other. intros ->. apply A3. now left.
    + destruct (owned i c); exact Z.
    + destruct (owned i c); [exact Z|apply K].
  - apply K.
  - destruct (nth_error (jobs c) k) as [[i w [|a l]]|] eqn:J; try exact Z.
    pose proof (B _ (nth_error_In _ _ J)) as X. cbn in X.
    destruct (alive (nodes c w)).
    + destruct (perform a ok (nodes c w)) as [(n, r)|] eqn:P; [|exact Z].
      assert (Y : same_rows t (nodes c w) n).
      { apply (same_rows_performed a ok _ _ r); [|exact P]. intros ->. apply X. now left. }
      destruct r.
      * split; [reflexivity|]. intros v. cbn. now apply same_rows_set.
      * destruct (ended_nodes (with_jobs (with_node c w n) (without_nth k (jobs c))) i false)
          as (E1 & E2 & _).
        rewrite E1, E2. split; [reflexivity|]. intros v. cbn. now apply same_rows_set.
    + destruct (ended_nodes (with_jobs c (without_nth k (jobs c))) i false) as (E1 & E2 & _).
      rewrite E1, E2. exact Z.
  - destruct (nth_error (jobs c) k) as [[i w l]|]; [|exact Z].
    destruct (statement_of i (statements c)); [exact Z|]. destruct (holds_lock l); [|exact Z].
    split; [reflexivity|]. intros v. cbn. apply same_rows_set. now split.
Qed.
End Other.

Lemma others_kept : forall tables es e t, unnamed t (es ++ [e]) -> truncates e = true ->
  let c := run (new_cluster tables) es in
  remote (step c e) t = remote c t /\ forall w, same_rows t (nodes c w) (nodes (step c e) w).
Proof.
  intros tables es e t N H c. apply step_unconcerned; [|exact H]. apply unconcerned_run.
  - split; cbn; contradiction.
  - intros u ts X. apply (N u). apply in_app_iff. now left.
Qed.

(** ** Statements that succeed. *)

Lemma run_app : forall a b c, run c (a ++ b) = run (run c a) b.
Proof. intros. apply fold_left_app. Qed.

(** A node does everything that it has to do, if it is the first job. *)
Lemma job_done : forall ts all i w rest c, jobs c = Job i w (truncations ts) :: rest ->
  ready all (nodes c w) -> incl ts all ->
  exists c', run c (repeat (Work 0 true) (4 * List.length ts + 1)) = c' /\ jobs c' = rest
    /\ statements c' = statements c /\ next c' = next c /\ results c' = results c
    /\ listed c' = listed c /\ remote_tables c' = remote_tables c /\ ready all (nodes c' w)
    /\ forall v, v <> w -> nodes c' v = nodes c v.
Proof.
  induction ts as [|t ts IH]; intros all i w rest c J R I.
  - eexists. split; [reflexivity|]. cbn. rewrite J. cbn. do 6 (split; [reflexivity|]). now split.
  - destruct R as (R1 & R2 & R3 & R4).
    replace (4 * List.length (t :: ts) + 1) with (4 + (4 * List.length ts + 1)) by (cbn; lia).
    rewrite repeat_app, run_app.
    set (n := nodes c w) in *.
    assert (Hm : member t (tables n) = true) by (apply member_iff, R4, I; now left).
    set (n1 := Node (tables n) (memory n) (disk n) (sized n) (t :: marked n) true (moving n) (alive n)).
    set (n2 := flushed n1).
    set (n3 := Node (tables n2) (memory n2) (disk n2) (without t (sized n2)) (without t (marked n2))
                 false (moving n2) (alive n2)).
    set (n4 := Node (tables n3) (memory n3) (set_rows t [] (disk n3)) (sized n3) (marked n3) (locked n3)
                 (moving n3) (alive n3)).
    assert (A2 : alive n2 = true).
    { apply (flush_invariant (fun m => alive m = true)); [exact R1|auto]. }
    assert (M2 : moving n2 = None) by (unfold n2; rewrite flushed_moving; exact R3).
    assert (T2 : tables n2 = tables n) by (unfold n2; now rewrite flushed_tables).
    assert (St : forall c0 n0 a l n', jobs c0 = Job i w (a :: l) :: rest -> nodes c0 w = n0 ->
              alive n0 = true -> perform a true n0 = Some (n', true) ->
              step c0 (Work 0 true) = with_jobs (with_node c0 w n') (Job i w l :: rest)).
    { intros c0 n0 a l n' E1 E2 E3 E4. cbn [step]. rewrite E1. cbn [nth_error]. rewrite E2, E3, E4.
      reflexivity. }
    assert (Four : run c (repeat (Work 0 true) 4)
              = with_jobs (with_node (with_node (with_node (with_node c w n1) w n2) w n3) w n4)
                  (Job i w (truncations ts) :: rest)).
    { set (d1 := with_jobs (with_node c w n1) (Job i w (Flush :: Clear t :: Erase t :: truncations ts) :: rest)).
      set (d2 := with_jobs (with_node d1 w n2) (Job i w (Clear t :: Erase t :: truncations ts) :: rest)).
      set (d3 := with_jobs (with_node d2 w n3) (Job i w (Erase t :: truncations ts) :: rest)).
      assert (Q1 : step c (Work 0 true) = d1).
      { apply (St c n (Mark t)); [exact J|reflexivity|exact R1|].
        cbn [perform]. unfold n1. now rewrite Hm, R2, R3. }
      assert (Q2 : step d1 (Work 0 true) = d2).
      { apply (St d1 n1 Flush); [reflexivity|cbn; apply node_same|exact R1|reflexivity]. }
      assert (Q3 : step d2 (Work 0 true) = d3).
      { apply (St d2 n2 (Clear t)); [reflexivity|cbn; apply node_same|exact A2|].
        cbn [perform]. unfold n3. now rewrite M2. }
      cbn [repeat run fold_left]. rewrite Q1, Q2, Q3.
      apply (St d3 n3 (Erase t)); [reflexivity|cbn; apply node_same|exact A2|reflexivity]. }
    rewrite Four. clear Four.
    set (c4 := with_jobs _ _).
    assert (N4 : nodes c4 w = n4) by (cbn; apply node_same).
    destruct (IH all i w rest c4 eq_refl) as (c' & E & J' & S' & X' & Re' & L' & RT' & R' & O').
    + rewrite N4. split; [exact A2|]. split; [reflexivity|]. split; [exact M2|]. change (incl all (tables n2)). now rewrite T2.
    + intros x Hx. apply I. now right.
    + exists c'. split; [exact E|]. split; [exact J'|]. split; [exact S'|]. split; [exact X'|].
      split; [exact Re'|]. split; [exact L'|]. split; [exact RT'|]. split; [exact R'|].
      intros v Hv. rewrite (O' v Hv). cbn. now rewrite !node_other.
Qed.

Lemma executes_repeat : forall n, Forall executes (repeat (Work 0 true) n).
Proof. intros n. apply Forall_forall. intros e H. apply repeat_spec in H. now subst. Qed.

Lemma jobs_done : forall ws ts i c, jobs c = map (fun w => Job i w (truncations ts)) ws ->
  (forall w, In w ws -> ready ts (nodes c w)) ->
  exists es, Forall executes es /\ jobs (run c es) = []
    /\ statements (run c es) = statements c /\ next (run c es) = next c
    /\ results (run c es) = results c /\ listed (run c es) = listed c
    /\ remote_tables (run c es) = remote_tables c
    /\ (forall w, ready ts (nodes c w) -> ready ts (nodes (run c es) w)).
Proof.
  induction ws as [|w ws IH]; intros ts i c J R.
  - exists []. split; [constructor|]. split; [exact J|]. do 5 (split; [reflexivity|]). auto.
  - cbn in J.
    destruct (job_done ts ts i w _ c J (R w (or_introl eq_refl)) (incl_refl ts))
      as (c' & E & J' & S' & X' & Re' & L' & RT' & R' & O').
    assert (RR : forall v, ready ts (nodes c v) -> ready ts (nodes c' v)).
    { intros v Hv. destruct (Nat.eq_dec v w) as [->|Y]; [exact R'|]. now rewrite (O' v Y). }
    destruct (IH ts i c' J') as (es & F & Q1 & Q2 & Q3 & Q4 & Q5 & Q6 & Q7).
    { intros v Hv. apply RR. apply R. now right. }
    exists (repeat (Work 0 true) (4 * List.length ts + 1) ++ es). rewrite run_app, E.
    split; [apply Forall_app; split; [apply executes_repeat|exact F]|].
    split; [exact Q1|]. split; [congruence|]. split; [congruence|]. split; [congruence|].
    split; [congruence|]. split; [congruence|]. auto.
Qed.

Lemma remotely_done : forall l ts i u c, statements c = [(i, Statement u ts (Remotely l))] ->
  incl l (remote_tables c) ->
  exists c', run c (repeat (Proceed i) (List.length l)) = c'
    /\ statements c' = [(i, Statement u ts (Remotely []))] /\ jobs c' = jobs c /\ next c' = next c
    /\ results c' = results c /\ listed c' = listed c /\ nodes c' = nodes c.
Proof.
  induction l as [|t l IH]; intros ts i u c E I.
  - exists c. now repeat split.
  - cbn [List.length repeat run fold_left].
    set (c1 := step c (Proceed i)).
    assert (E1 : statements c1 = [(i, Statement u ts (Remotely l))] /\ jobs c1 = jobs c
              /\ next c1 = next c /\ results c1 = results c /\ listed c1 = listed c
              /\ nodes c1 = nodes c /\ remote_tables c1 = remote_tables c).
    { unfold c1. cbn [step]. rewrite E. unfold statement_of. cbn [find fst]. rewrite Nat.eqb_refl.
      cbn [option_map snd at_]. rewrite (proj2 (member_iff t (remote_tables c)) (I t (or_introl eq_refl))).
      cbn [proceeded statements jobs next results listed nodes remote_tables origin named].
      rewrite ?E. unfold without_statement. cbn [filter fst]. rewrite Nat.eqb_refl. now repeat split. }
    destruct E1 as (Q1 & Q2 & Q3 & Q4 & Q5 & Q6 & Q7).
    destruct (IH ts i u c1 Q1) as (c' & R0 & R1 & R2 & R3 & R4 & R5 & R6).
    { rewrite Q7. intros x Hx. apply I. now right. }
    exists c'. repeat split; [exact R0|exact R1|congruence|congruence|congruence|congruence|congruence].
Qed.

Lemma statement_succeeds : forall c u ts, sendable ts -> statements c = [] -> jobs c = [] ->
  incl ts (remote_tables c) -> ready ts (nodes c u) ->
  (forall w, In w (listed c) -> ready ts (nodes c w)) ->
  exists es, Forall executes es /\ In (next c, true) (results (run c (Begin u ts :: es))).
Proof.
  intros c u ts Se E J I Ru R.
  set (i := next c).
  set (c1 := step c (Begin u ts)).
  assert (E1 : statements c1 = [(i, Statement u ts (Remotely ts))] /\ jobs c1 = []
            /\ listed c1 = listed c /\ nodes c1 = nodes c /\ remote_tables c1 = remote_tables c).
  { unfold c1. cbn [step]. destruct Ru as (-> & _). cbn. rewrite E, J. now repeat split. }
  destruct E1 as (A1 & A2 & A3 & A4 & A5).
  destruct (remotely_done ts ts i u c1 A1) as (c2 & R0 & R1 & R2 & R3 & R4 & R5 & R6).
  { now rewrite A5. }
  set (ws := filter (fun w => negb (w =? u)) (listed c)).
  set (c3 := step c2 (Proceed i)).
  assert (E3 : statements c3 = [(i, Statement u ts Peers)]
            /\ jobs c3 = map (fun w => Job i w (truncations ts)) ws /\ nodes c3 = nodes c).
  { unfold c3. cbn [step]. rewrite R1. unfold statement_of. cbn [find fst]. rewrite Nat.eqb_refl.
    cbn [option_map snd at_ proceeded statements jobs nodes origin named with_jobs].
    rewrite ?R1. unfold without_statement. cbn [filter fst]. rewrite Nat.eqb_refl.
    split; [reflexivity|]. rewrite R2, A2, R5, A3, (sent_as_named ts Se). split; [reflexivity|congruence]. }
  destruct E3 as (B1 & B2 & B3).
  destruct (jobs_done ws ts i c3 B2) as (es4 & F4 & C1 & C2 & C3 & C4 & C5 & C6 & C7).
  { intros w Hw. rewrite B3. apply R. apply filter_In in Hw. tauto. }
  set (c4 := run c3 es4) in *.
  set (c5 := step c4 (Proceed i)).
  assert (E5 : statements c5 = [(i, Statement u ts Own)]
            /\ jobs c5 = map (fun w => Job i w (truncations ts)) [u] /\ nodes c5 = nodes c4).
  { unfold c5. cbn [step]. rewrite C2, B1. unfold statement_of. cbn [find fst]. rewrite Nat.eqb_refl.
    cbn [option_map snd at_]. unfold owned. rewrite C1. cbn [existsb].
    cbn [proceeded statements jobs nodes origin named with_jobs]. rewrite ?C2, ?B1.
    unfold without_statement. cbn [filter fst]. rewrite Nat.eqb_refl. rewrite ?C1. now repeat split. }
  destruct E5 as (D1 & D2 & D3).
  destruct (jobs_done [u] ts i c5 D2) as (es6 & F6 & G1 & G2 & G3 & G4 & G5 & G6 & G7).
  { intros w [<-|[]]. rewrite D3. apply C7. now rewrite B3. }
  exists (repeat (Proceed i) (List.length ts) ++ [Proceed i] ++ es4 ++ [Proceed i] ++ es6 ++ [Proceed i]).
  split.
  - apply Forall_app. split.
    { apply Forall_forall. intros e H. apply repeat_spec in H. now subst. }
    apply Forall_app. split; [repeat constructor|]. apply Forall_app. split; [exact F4|].
    apply Forall_app. split; [repeat constructor|]. apply Forall_app. split; [exact F6|]. repeat constructor.
  - change (run c (Begin u ts :: repeat (Proceed i) (List.length ts) ++ [Proceed i] ++ es4
              ++ [Proceed i] ++ es6 ++ [Proceed i]))
      with (run c1 (repeat (Proceed i) (List.length ts) ++ [Proceed i] ++ es4
              ++ [Proceed i] ++ es6 ++ [Proceed i])).
    rewrite run_app, R0, run_app. change (run c2 [Proceed i]) with c3. rewrite run_app. fold c4.
    rewrite run_app. change (run c4 [Proceed i]) with c5. rewrite run_app.
    set (c6 := run c5 es6) in *. cbn [run fold_left step]. rewrite G2, D1. unfold statement_of.
    cbn [find fst]. rewrite Nat.eqb_refl. cbn [option_map snd at_]. unfold owned. rewrite G1.
    cbn [existsb]. unfold ended. rewrite ?G2, ?D1. unfold statement_of. cbn [find fst].
    rewrite Nat.eqb_refl. cbn [option_map snd]. cbn [results]. apply in_app_iff. right. now left.
Qed.
