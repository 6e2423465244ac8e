(** The tables of the nodes in a cluster: their definitions, and requests in clusters that are
    healthy. *)
From Coq Require Import ZArith Bool String List Lia.
From Verif Require Import Model.Base Model.Sql Model.Cluster Spec.StatementSpec Spec.ClusterSpec
  Proofs.SqlProofs Proofs.ClusterProofs.
Import ListNotations.
Open Scope nat_scope.
Open Scope list_scope.

Lemma execute_find : forall r ts ts', execute r ts = (ts', true) ->
  forall x, find_table x ts' = match r with
    | Create y d => if String.eqb x y then Some d else find_table x ts
    | Drop xs => if in_dec string_dec x xs then None else find_table x ts
    end.
Proof.
  intros [y d|xs] ts ts' H x; cbn [execute] in H.
  - apply create_ok in H. apply H.
  - apply drop_ok in H. apply H.
Qed.

Section Definitions.
Variable storage_schema : Z -> Z.

Definition consistent (c : cluster) : Prop :=
  (forall x d, find_table x (remote c) = Some d -> distinguishable storage_schema d)
  /\ (forall t x d, In t (tasks c) -> asked t = Create x d -> find_table x (remote c) = Some d)
  /\ (forall u, running c u = true -> forall x d0 d, find_table x (local (nodes c u)) = Some d0 ->
        find_table x (remote c) = Some d -> d0 = d).

Lemma consistent_step : forall c a, balanced c -> consistent c -> orderly c a ->
  separate storage_schema c a -> harmed (run storage_schema c (events_of a)) = false ->
  consistent (run storage_schema c (events_of a)).
Proof.
  intros c a BA (D & A & C) O S H. pose proof BA as (N & NR & R & J & P & B).
  destruct a as [u key|e].
  - destruct O as (T & NI).
    assert (St : at_stage (nodes c u) = Stopped).
    { specialize (J u). specialize (R u). unfold running in R. destruct (at_stage (nodes c u)); tauto. }
    destruct (start_result storage_schema c u key St)
      as (E1 & E2 & E3 & E4 & E5 & ts & ok & k & Y & E6 & _).
    set (c' := run storage_schema c (events_of (Start u key))) in *.
    split; [|split].
    + now rewrite E1.
    + rewrite E1, E3. exact A.
    + intros v V x d0 d L F. rewrite E1 in F. destruct (Nat.eq_dec v u) as [->|Dv].
      * unfold running in V. rewrite E6 in V, L. cbn [at_stage local] in V, L.
        destruct ok; [|discriminate]. pose proof (synchronized storage_schema _ _ _ NR Y x) as Z.
        pose proof (D x d F) as Dd. rewrite F in Z. destruct d as [s|m]; [|congruence].
        destruct Z as (d1 & Z1 & Z2). assert (d0 = d1) as -> by congruence. destruct d1 as [s'|m].
        -- cbn [delta_schema] in Z2. now subst s'.
        -- cbn [delta_schema distinguishable] in *. now elim (Dd m).
      * apply (C v) with (x := x); [unfold running in *; now rewrite (E5 v Dv) in V| |exact F].
        now rewrite (E5 v Dv) in L.
  - unfold run in *. cbn [events_of fold_left] in *.
    destruct e as [u|u key|u|u|u|u r|i|i w|i]; cbn [orderly] in O; try contradiction.
    + cbn [step] in *. destruct (running c u) eqn:RU; [|now repeat split].
      cbn [harmed] in H. apply orb_false_iff in H. destruct H as (H1 & H2).
      destruct (not_lost _ _ H2) as (L1 & L2). rewrite L1. split; [exact D|]. split; [exact A|].
      intros v V. unfold running in V. cbn [nodes remote] in *. unfold update in *.
      destruct (v =? u) eqn:E; [discriminate|]. now apply C.
    + cbn [step] in *. cbn [harmed] in H. apply orb_false_iff in H. destruct H as (H1 & H2).
      destruct (not_lost _ _ H2) as (L1 & L2). rewrite L1. split; [exact D|]. split; [exact A|].
      intros v V. unfold running in V. cbn [nodes remote] in *. unfold update in *.
      destruct (v =? u) eqn:E; [discriminate|]. now apply C.
    + cbn [step] in *. destruct (running c u) eqn:RU; [|now repeat split].
      destruct (execute r (remote c)) as (ts, [|]) eqn:E.
      * pose proof (execute_find _ _ _ E) as F. destruct S as (S1 & S2).
        split; [|split]; cbn [rows remote nodes tasks].
        -- intros x d. rewrite (F x). destruct r as [y d'|xs].
           ++ destruct (String.eqb_spec x y); [|apply D]. intros X. now injection X as <-.
           ++ destruct (in_dec string_dec x xs); [discriminate|apply D].
        -- intros t x d I Et. apply in_app_iff in I. rewrite (F x). destruct I as [I|[<-|[]]].
           ++ assert (NS : ~ In x (names_of r)).
              { intros J'. apply (S1 x J' t I). rewrite Et. now left. }
              destruct r as [y d'|xs]; cbn [names_of] in NS.
              ** destruct (String.eqb_spec x y) as [->|]; [elim NS; now left|]. now apply (A t).
              ** destruct (in_dec string_dec x xs); [contradiction|now apply (A t)].
           ++ cbn [asked] in Et. subst r. now rewrite String.eqb_refl.
        -- intros v V x d0 d L. rewrite (F x). destruct r as [y d'|xs].
           ++ destruct (String.eqb_spec x y) as [->|]; [|now apply (C v V x)].
              apply create_ok in E. destruct E as (E & _).
              pose proof (balanced_names _ BA v V y (S1 y (or_introl eq_refl))) as X.
              apply X in E. cbn [nodes] in L. congruence.
           ++ destruct (in_dec string_dec x xs); [discriminate|now apply (C v V x)].
      * cbn [harmed] in H. apply orb_false_iff in H. destruct H as (H1 & H2).
        apply negb_false_iff, Nat.eqb_eq in H2. pose proof (execute_unchanged _ _ _ E H2) as ->.
        now repeat split.
    + cbn [step] in *. destruct (nth_error (tasks c) i) as [[u r [|peers]]|] eqn:T;
        [|now repeat split|now repeat split].
      split; [exact D|]. split; [|exact C]. cbn [tasks remote]. intros t x d I Et.
      apply in_replace in I. destruct I as [->|I]; [|now apply (A t)].
      apply nth_error_In in T. now apply (A _ x d T).
    + cbn [step] in *. destruct (nth_error (tasks c) i) as [[u r [|peers]]|] eqn:T;
        [now repeat split| |now repeat split].
      destruct (existsb (Nat.eqb w) peers) eqn:W; [|now repeat split].
      destruct (at_stage (nodes c w)) as [| | |k] eqn:SW; try discriminate.
      destruct (at_stage (nodes c u)) as [| | |k'] eqn:SU; try discriminate.
      destruct (k =? k')%Z; [|discriminate].
      pose proof (nth_error_In _ _ T) as TI. assert (PR := P _ TI). cbn [asked] in PR.
      rewrite (peer_same r _ PR) in *.
      destruct (execute r (local (nodes c w))) as (ts, [|]) eqn:E; [|discriminate].
      cbn [with_node rows remote nodes tasks keys harmed].
      split; [exact D|]. split; cbn [rows remote nodes tasks].
      * intros t x d I Et. apply in_replace in I. destruct I as [->|I]; [|now apply (A t)].
        now apply (A _ x d TI).
      * intros v V x d0 d L F. unfold update in L. destruct (Nat.eqb_spec v w) as [EQ|NE].
        -- cbn [local] in L. rewrite (execute_find _ _ _ E x) in L.
           assert (RW : running c w = true) by (unfold running; now rewrite SW).
           destruct r as [y d'|xs].
           ++ destruct (String.eqb_spec x y) as [->|]; [|now apply (C w RW x)].
              injection L as <-. rewrite (A _ y d' TI eq_refl) in F. congruence.
           ++ destruct (in_dec string_dec x xs); [discriminate|now apply (C w RW x)].
        -- apply (C v) with (x := x); [|exact L|exact F]. unfold running in *. cbn [nodes] in V.
           unfold update in V. apply Nat.eqb_neq in NE. now rewrite NE in V.
    + cbn [step] in *. destruct (nth_error (tasks c) i) as [[u r [|[|p peers]]]|] eqn:T;
        try now repeat split.
      destruct (execute r (local (nodes c u))) as (ts, [|]) eqn:E; [|discriminate].
      pose proof (nth_error_In _ _ T) as TI.
      cbn [with_node rows remote nodes tasks keys harmed].
      split; [exact D|]. split; cbn [rows remote nodes tasks].
      * intros t x d I Et. apply in_without in I. now apply (A t).
      * intros v V x d0 d L F.
        assert (V' : running c v = true).
        { unfold running in *. cbn [nodes] in V. unfold update in V.
          destruct (Nat.eqb_spec v u) as [EQ|]; [rewrite EQ|]; exact V. }
        unfold update in L. destruct (Nat.eqb_spec v u) as [EQ|NE].
        -- cbn [local] in L. rewrite (execute_find _ _ _ E x) in L. rewrite EQ in V'.
           destruct r as [y d'|xs].
           ++ destruct (String.eqb_spec x y) as [->|]; [|now apply (C u V' x)].
              injection L as <-. rewrite (A _ y d' TI eq_refl) in F. congruence.
           ++ destruct (in_dec string_dec x xs); [discriminate|now apply (C u V' x)].
        -- now apply (C v V' x).
Qed.

Lemma consistent_all : forall actions c, balanced c -> consistent c ->
  always storage_schema orderly c actions -> always storage_schema (separate storage_schema) c actions ->
  harmed (outcome_of storage_schema c actions) = false ->
  balanced (outcome_of storage_schema c actions) /\ consistent (outcome_of storage_schema c actions).
Proof.
  induction actions as [|a actions IH]; intros c B C O S H; [auto|]. cbn in *.
  destruct O as (O1 & O2), S as (S1 & S2).
  assert (X : harmed (run storage_schema c (events_of a)) = false).
  { destruct (harmed (run storage_schema c (events_of a))) eqn:E; [|reflexivity].
    pose proof (outcome_harmed storage_schema actions _ E) as X. unfold outcome_of in X. congruence. }
  apply IH; try assumption; [now apply balanced_step|now apply consistent_step].
Qed.

Lemma consistent_definitions : forall c, balanced c -> consistent c -> same_definitions c.
Proof.
  intros c B (_ & _ & C) u U x S. pose proof (balanced_names c B u U x S) as X.
  destruct (find_table x (local (nodes c u))) as [d0|] eqn:L.
  - destruct (find_table x (remote c)) as [d|] eqn:F.
    + f_equal. now apply (C u U x).
    + destruct X as (_ & X). now specialize (X eq_refl).
  - destruct X as (X & _). now rewrite X.
Qed.

Lemma definitions_agree : forall ts local actions, NoDup (map fst ts) ->
  (forall x d, In (x, d) ts -> distinguishable storage_schema d) ->
  always storage_schema orderly (new_cluster ts local) actions ->
  always storage_schema (separate storage_schema) (new_cluster ts local) actions ->
  harmed (outcome_of storage_schema (new_cluster ts local) actions) = false ->
  same_definitions (outcome_of storage_schema (new_cluster ts local) actions).
Proof.
  intros ts local actions N D O S H.
  destruct (consistent_all actions (new_cluster ts local)) as (B & C); try assumption.
  - now apply balanced_new.
  - split; [|split].
    + intros x d F. apply find_In in F. now apply (D x).
    + intros t x d [].
    + intros u U. discriminate.
  - now apply consistent_definitions.
Qed.

(** Requests in clusters that are healthy. *)
Lemma execute_same : forall r ts ts', (forall x, find_table x ts = find_table x ts') ->
  snd (execute r ts) = true -> snd (execute r ts') = true.
Proof.
  intros [x d|xs] ts ts' F H; cbn [execute] in *.
  - destruct (create_table x d ts) as (t, b) eqn:E. cbn [snd] in H. subst b. apply create_ok in E.
    destruct E as (E & _). rewrite create_none; [reflexivity|]. now rewrite <- F.
  - destruct (drop_tables xs ts) as (t, b) eqn:E. cbn [snd] in H. subst b. apply drop_ok in E.
    destruct E as (N & A & _). apply drop_all; [exact N|]. intros y I. rewrite <- F. now apply A.
Qed.

Definition asks (r : request) : Prop :=
  match r with Drop xs => Forall plain xs /\ xs <> [] | Create _ _ => True end.

Lemma visits : forall u r key l c, asks r -> NoDup l -> at_stage (nodes c u) = Running key ->
  ~ In u l ->
  tasks c = [Task u r (Visiting l)] ->
  (forall w, In w l -> at_stage (nodes c w) = Running key
                       /\ snd (execute r (local (nodes c w))) = true) ->
  let c' := run storage_schema c (map (Visit 0) l) in
  remote c' = remote c /\ rows c' = rows c /\ keys c' = keys c /\ harmed c' = harmed c
  /\ tasks c' = [Task u r (Visiting [])]
  /\ (forall w, In w l -> nodes c' w = Node (fst (execute r (local (nodes c w)))) (Running key))
  /\ (forall w, ~ In w l -> nodes c' w = nodes c w).
Proof.
  intros u r key l. induction l as [|w l IH]; intros c A N U NU T F.
  - cbn. split; [reflexivity|]. split; [reflexivity|]. split; [reflexivity|]. split; [reflexivity|].
    split; [exact T|]. split; [intros w []|reflexivity].
  - inversion N as [|? ? N1 N2]; subst. cbn [map run fold_left]. fold (run storage_schema).
    set (c1 := step storage_schema c (Visit 0 w)).
    destruct (F w (or_introl eq_refl)) as (W1 & W2).
    assert (C1 : c1 = Cluster (remote c) (rows c) (keys c)
              (update (nodes c) w (Node (fst (execute r (local (nodes c w)))) (Running key)))
              [Task u r (Visiting l)] (harmed c)).
    { unfold c1. cbn [step]. rewrite T. cbn [nth_error existsb]. rewrite Nat.eqb_refl. cbn [orb].
      rewrite W1, U, Z.eqb_refl. rewrite (peer_same r _ A).
      destruct (execute r (local (nodes c w))) as (ts, ok). cbn [snd] in W2. subst ok.
      cbn [with_node remote rows keys nodes tasks harmed remove_one fst]. rewrite Nat.eqb_refl.
      rewrite T. reflexivity. }
    assert (D : forall v, v <> w -> nodes c1 v = nodes c v).
    { intros v V. rewrite C1. cbn [nodes]. unfold update. apply Nat.eqb_neq in V. now rewrite V. }
    assert (Du : u <> w) by (intros ->; apply NU; now left).
    destruct (IH c1 A N2) as (E1 & E2 & E3 & E4 & E5 & E6 & E7).
    + now rewrite (D u Du).
    + intros I. apply NU. now right.
    + now rewrite C1.
    + intros v I. rewrite (D v); [|intros ->; contradiction]. apply F. now right.
    + assert (X : nodes c1 w = Node (fst (execute r (local (nodes c w)))) (Running key)).
      { rewrite C1. cbn [nodes]. unfold update. now rewrite Nat.eqb_refl. }
      assert (remote c1 = remote c /\ rows c1 = rows c /\ keys c1 = keys c /\ harmed c1 = harmed c)
        as (X1 & X2 & X3 & X4) by (rewrite C1; auto).
      change (fold_left (step storage_schema) (map (Visit 0) l) c1)
        with (run storage_schema c1 (map (Visit 0) l)).
      split; [congruence|]. split; [congruence|]. split; [congruence|]. split; [congruence|].
      split; [exact E5|]. split.
      * intros v [<-|I]; [now rewrite (E7 w N1)|]. rewrite (E6 v I).
        rewrite (D v); [reflexivity|]. intros ->. contradiction.
      * intros v I. cbn [In] in I. rewrite (E7 v) by tauto. apply D. intros ->. tauto.
Qed.

Lemma run_app : forall c l l', run storage_schema c (l ++ l')
  = run storage_schema (run storage_schema c l) l'.
Proof. intros c l l'. apply fold_left_app. Qed.

Lemma whole_request : forall c u r, healthy c -> running c u = true -> asks r ->
  snd (execute r (remote c)) = true ->
  healthy (run storage_schema c (whole c u r))
  /\ remote (run storage_schema c (whole c u r)) = fst (execute r (remote c))
  /\ rows (run storage_schema c (whole c u r)) = rows c.
Proof.
  intros c u r (T & H & N & R & K & S) U A X. unfold whole.
  destruct (execute r (remote c)) as (ts, ok) eqn:E. cbn [snd fst] in *. subst ok.
  set (peers := filter (fun v => negb (v =? u)) (rows c)).
  set (c2 := Cluster ts (rows c) (keys c) (nodes c) [Task u r (Visiting peers)] (harmed c)).
  assert (C2 : run storage_schema c (Begin u r :: Read 0 :: map (Visit 0) peers ++ [Finish 0])
             = run storage_schema c2 (map (Visit 0) peers ++ [Finish 0])).
  { unfold run. cbn [fold_left]. f_equal. cbn [step]. rewrite U, E. cbn [tasks]. rewrite T.
    cbn [app nth_error replace_nth remote rows keys nodes harmed]. reflexivity. }
  rewrite C2, run_app. assert (exists key, at_stage (nodes c u) = Running key) as (key & Uk).
  { unfold running in U. destruct (at_stage (nodes c u)); try discriminate. eexists. reflexivity. }
  assert (L : forall x v, running c v = true -> find_table x (remote c) = find_table x (local (nodes c v))).
  { intros x v V. symmetry. apply S; [exact V|]. intros t. rewrite T. intros []. }
  assert (Ok : forall v, running c v = true -> snd (execute r (local (nodes c v))) = true).
  { intros v V. apply (execute_same r (remote c)); [intros x; now apply L|]. now rewrite E. }
  assert (SK : forall v, running c v = true -> at_stage (nodes c v) = Running key).
  { intros v V. unfold running in V. destruct (at_stage (nodes c v)) as [| | |k] eqn:W; try discriminate.
    f_equal. pose proof (K u key Uk). pose proof (K v k W). congruence. }
  destruct (visits u r key peers c2 A) as (E1 & E2 & E3 & E4 & E5 & E6 & E7).
  - now apply NoDup_filter.
  - exact Uk.
  - intros I. apply filter_In in I. destruct I as (_ & I). now rewrite Nat.eqb_refl in I.
  - reflexivity.
  - intros w I. apply filter_In in I. destruct I as (I & _). apply R in I. cbn [nodes c2]. auto.
  - set (c3 := run storage_schema c2 (map (Visit 0) peers)) in *.
    assert (U3 : nodes c3 u = nodes c u).
    { apply E7. intros I. apply filter_In in I. destruct I as (_ & I). now rewrite Nat.eqb_refl in I. }
    assert (C4 : run storage_schema c3 [Finish 0] = Cluster ts (rows c) (keys c)
              (update (nodes c3) u (Node (fst (execute r (local (nodes c u)))) (Running key))) [] false).
    { cbn [run fold_left step]. rewrite E5. cbn [nth_error]. rewrite U3.
      pose proof (Ok u U) as OkU. destruct (execute r (local (nodes c u))) as (tu, b). cbn [snd] in OkU. subst b.
      unfold with_node. cbn [remote rows keys nodes tasks harmed fst]. rewrite E1, E2, E3, E4, E5. cbn.
      rewrite Uk, H. reflexivity. }
    rewrite C4. cbn [remote rows]. split; [|auto].
    assert (ND : forall v, running c v = true -> update (nodes c3) u
              (Node (fst (execute r (local (nodes c u)))) (Running key)) v
              = Node (fst (execute r (local (nodes c v)))) (Running key)).
    { intros v V. unfold update. destruct (Nat.eqb_spec v u) as [EQ|D]; [now rewrite EQ|].
      apply E6. apply filter_In. split; [now apply R|]. apply Nat.eqb_neq in D. now rewrite D. }
    assert (NN : forall v, running c v = false -> update (nodes c3) u
              (Node (fst (execute r (local (nodes c u)))) (Running key)) v = nodes c v).
    { intros v V. unfold update. destruct (Nat.eqb_spec v u) as [EQ|D]; [congruence|].
      apply E7. intros I. apply filter_In in I. destruct I as (I & _). apply R in I. congruence. }
    assert (RR : forall v, running (Cluster ts (rows c) (keys c) (update (nodes c3) u
              (Node (fst (execute r (local (nodes c u)))) (Running key))) [] false) v = running c v).
    { intros v. unfold running at 1. cbn [nodes]. destruct (running c v) eqn:V.
      - now rewrite (ND v V).
      - rewrite (NN v V). exact V. }
    split; [reflexivity|]. split; [reflexivity|]. split; [exact N|].
    split; [intros v; rewrite RR; apply R|]. split.
    + intros v k W. cbn [nodes keys] in *. destruct (running c v) eqn:V.
      * rewrite (ND v V) in W. cbn [at_stage] in W. injection W as <-. now apply (K u).
      * rewrite (NN v V) in W. now apply (K v).
    + intros v V x _. rewrite RR in V. cbn [nodes remote]. rewrite (ND v V). cbn [local].
      pose proof (Ok v V) as OkV. destruct (execute r (local (nodes c v))) as (tv, b) eqn:Ev. cbn [snd fst] in *.
      subst b. rewrite (execute_find _ _ _ Ev x), (execute_find _ _ _ E x). now rewrite (L x v V).
Qed.

Lemma created : forall c u x d, healthy c -> running c u = true -> find_table x (remote c) = None ->
  let c' := run storage_schema c (whole c u (Create x d)) in
  healthy c' /\ rows c' = rows c
  /\ forall y, find_table y (remote c') = if String.eqb y x then Some d else find_table y (remote c).
Proof.
  intros c u x d H U F c'.
  destruct (whole_request c u (Create x d) H U I) as (H' & R & W).
  - cbn [execute]. now rewrite create_none.
  - split; [exact H'|]. split; [exact W|]. intros y. unfold c'. rewrite R. cbn [execute].
    apply (create_ok x d (remote c)). now rewrite create_none.
Qed.
Lemma dropped_everywhere : forall c u xs, healthy c -> running c u = true ->
  xs <> [] -> Forall plain xs -> NoDup xs -> (forall x, In x xs -> find_table x (remote c) <> None) ->
  let c' := run storage_schema c (whole c u (Drop xs)) in
  healthy c' /\ rows c' = rows c
  /\ forall y, find_table y (remote c')
               = if in_dec string_dec y xs then None else find_table y (remote c).
Proof.
  intros c u xs H U N P ND F c'. pose proof (drop_all xs (remote c) ND F) as S.
  destruct (whole_request c u (Drop xs) H U (conj P N) S) as (H' & R & W).
  split; [exact H'|]. split; [exact W|]. unfold c'. rewrite R. cbn [execute].
  apply (drop_ok xs (remote c)). destruct (drop_tables xs (remote c)). cbn [fst snd] in *. now subst.
Qed.

(** A request that the remote data folder refuses. *)
Lemma refused : forall c u r, match r with
    | Create x _ => find_table x (remote c) <> None
    | Drop xs => match xs with x :: _ => find_table x (remote c) = None | [] => False end
    end -> run storage_schema c [Begin u r] = c.
Proof.
  intros c u r H. cbn [run fold_left step]. destruct (running c u); [|reflexivity].
  assert (E : execute r (remote c) = (remote c, false)).
  { destruct r as [x d|[|x xs]]; cbn [execute drop_tables]; [|contradiction|].
    - unfold create_table. apply has_iff in H. now rewrite H.
    - apply hasn_iff in H. now rewrite H. }
  rewrite E. rewrite Nat.eqb_refl. cbn [negb]. rewrite orb_false_r. now destruct c.
Qed.

(** Nodes that are started. *)
Lemma synchronize_match : forall rem loc, NoDup (map fst rem) ->
  (forall x d, find_table x loc = Some d -> find_table x rem = Some d) ->
  exists ts, synchronize storage_schema rem loc = (ts, true)
    /\ forall x, find_table x ts = find_table x rem.
Proof.
  intros rem loc N F.
  assert (E : exist_remotely loc rem = true).
  { apply forallb_forall. intros (x, d) I. cbn [fst]. apply has_iff. apply In_has in I.
    destruct (find_table x loc) as [d'|] eqn:L; [|contradiction]. rewrite (F x d' L). discriminate. }
  assert (G : forall sub, (forall p, In p sub -> In p rem) -> NoDup (map fst sub) ->
            exists mn ms, missing_normal storage_schema sub loc = Some mn /\ missing_series sub loc = Some ms
              /\ (forall x d, In (x, d) mn -> In (x, d) sub /\ find_table x loc = None
                                              /\ exists s, d = Normal s)
              /\ (forall x d, In (x, d) ms -> In (x, d) sub /\ find_table x loc = None
                                              /\ exists m, d = Series m)
              /\ NoDup (map fst mn) /\ NoDup (map fst ms)).
  { induction sub as [|(x, d) sub IH]; intros I ND.
    - exists [], []. cbn. split; [reflexivity|]. split; [reflexivity|].
      split; [intros x d []|]. split; [intros x d []|]. split; constructor.
    - cbn [map fst] in ND. inversion ND as [|? ? ND1 ND2]; subst.
      destruct (IH (fun p Hp => I p (or_intror Hp)) ND2) as (mn & ms & E1 & E2 & A1 & A2 & B1 & B2).
      assert (Hx : find_table x rem = Some d) by (apply In_find; [exact N|apply I; now left]).
      assert (XN : ~ In x (map fst mn)).
      { intros J. apply in_map_iff in J. destruct J as ((y, e) & <- & J). apply A1 in J. destruct J as (J & _).
        apply ND1, in_map_iff. now exists (y, e). }
      assert (XS : ~ In x (map fst ms)).
      { intros J. apply in_map_iff in J. destruct J as ((y, e) & <- & J). apply A2 in J. destruct J as (J & _).
        apply ND1, in_map_iff. now exists (y, e). }
      assert (A1' : forall y e, In (y, e) mn -> In (y, e) ((x, d) :: sub) /\ find_table y loc = None
                                              /\ exists s, e = Normal s).
      { intros y e J. destruct (A1 y e J) as (J1 & J2). split; [now right|exact J2]. }
      assert (A2' : forall y e, In (y, e) ms -> In (y, e) ((x, d) :: sub) /\ find_table y loc = None
                                              /\ exists m, e = Series m).
      { intros y e J. destruct (A2 y e J) as (J1 & J2). split; [now right|exact J2]. }
      cbn [missing_normal missing_series]. rewrite E1, E2. destruct (find_table x loc) as [d'|] eqn:L.
      + assert (d' = d) as -> by (specialize (F x d' L); congruence).
        exists mn, ms. destruct d as [s|m]; cbn [delta_schema]; rewrite Z.eqb_refl; auto 10.
      + destruct d as [s|m].
        * exists ((x, Normal s) :: mn), ms. split; [reflexivity|]. split; [reflexivity|].
          split; [|split; [exact A2'|split; [now constructor|exact B2]]]. intros y e [J|J]; [|now apply A1'].
          injection J as <- <-. split; [now left|]. split; [exact L|now exists s].
        * exists mn, ((x, Series m) :: ms). split; [reflexivity|]. split; [reflexivity|].
          split; [exact A1'|split; [|split; [exact B1|now constructor]]]. intros y e [J|J]; [|now apply A2'].
          injection J as <- <-. split; [now left|]. split; [exact L|now exists m]. }
  destruct (G rem (fun p Hp => Hp) N) as (mn & ms & E1 & E2 & A1 & A2 & B1 & B2).
  assert (Q : forall l t, NoDup (map fst l) -> (forall x d, In (x, d) l -> find_table x t = None) ->
            snd (create_tables l t) = true).
  { induction l as [|(x, d) l IH]; intros t ND H; [reflexivity|]. cbn [create_tables].
    rewrite (create_none x d t) by (apply (H x d); now left). cbn [map fst] in ND.
    inversion ND as [|? ? ND1 ND2]; subst. apply IH; [exact ND2|]. intros y e I.
    rewrite find_app, (H y e (or_intror I)), find_cons. destruct (String.eqb_spec x y) as [EQ|]; [|reflexivity].
    elim ND1. rewrite EQ. apply in_map_iff. now exists (y, e). }
  assert (ND : NoDup (map fst (mn ++ ms))).
  { rewrite map_app. clear - A1 A2 B1 B2 N.
    assert (Dj : forall x, In x (map fst mn) -> ~ In x (map fst ms)).
    { intros x I J. apply in_map_iff in I, J. destruct I as ((y, e) & <- & I), J as ((z, f) & Ez & J).
      cbn [fst] in Ez. subst z. apply A1 in I. apply A2 in J. destruct I as (I & _ & s & ->), J as (J & _ & m & ->).
      apply (In_find _ _ _ N) in I, J. congruence. }
    clear A1 A2 N. induction mn as [|(x, d) mn IH]; [exact B2|]. cbn [map fst app] in *.
    inversion B1 as [|? ? X1 X2]; subst. constructor.
    - rewrite in_app_iff. intros [I|I]; [contradiction|]. apply (Dj x); [now left|exact I].
    - apply IH; [exact X2|]. intros y I. apply Dj. now right. }
  unfold synchronize. rewrite E, E1, E2. destruct (create_tables (mn ++ ms) loc) as (ts, b) eqn:C.
  assert (b = true) as ->.
  { pose proof (Q (mn ++ ms) loc ND) as Qx. rewrite C in Qx. apply Qx. intros x d I. apply in_app_iff in I.
    destruct I as [I|I]; [now apply (A1 x d)|now apply (A2 x d)]. }
  exists ts. split; [reflexivity|]. intros x.
  assert (Sy : synchronize storage_schema rem loc = (ts, true)).
  { unfold synchronize. now rewrite E, E1, E2. }
  pose proof (synchronized storage_schema rem loc ts N Sy x) as Z.
  destruct (create_tables_ok _ _ _ C) as (_ & CA & CO).
  destruct (find_table x rem) as [[s|m]|] eqn:R; try assumption.
  destruct (in_dec string_dec x (map fst (mn ++ ms))) as [I|I].
  - apply in_map_iff in I. destruct I as ((y, e) & <- & I). cbn [fst] in *. destruct (CA _ _ I) as (_ & ->).
    apply in_app_iff in I. destruct I as [I|I]; [apply A1 in I|apply A2 in I]; destruct I as (I & _);
      apply (In_find _ _ _ N) in I; congruence.
  - rewrite (CO x I) in *. destruct Z as (d & Z1 & _). rewrite Z1. specialize (F x d Z1). congruence.
Qed.

Lemma started : forall c u key, healthy c -> NoDup (map fst (remote c)) -> ~ In u (rows c) ->
  at_stage (nodes c u) = Stopped ->
  (forall x d, find_table x (local (nodes c u)) = Some d -> find_table x (remote c) = Some d) ->
  healthy (run storage_schema c (events_of (Start u key)))
  /\ rows (run storage_schema c (events_of (Start u key))) = rows c ++ [u]
  /\ remote (run storage_schema c (events_of (Start u key))) = remote c.
Proof.
  intros c u key (T & H & N & R & K & S) NR NI St F.
  destruct (start_result storage_schema c u key St)
    as (E1 & E2 & E3 & E4 & E5 & ts & ok & k & Y & E6 & E7 & E8).
  set (c' := run storage_schema c (events_of (Start u key))) in *.
  destruct (synchronize_match _ _ NR F) as (ts' & Y' & Fx). rewrite Y' in Y. injection Y as <- <-.
  assert (RR : forall v, v <> u -> running c' v = running c v).
  { intros v D. unfold running. now rewrite (E5 v D). }
  assert (RU : running c' u = true) by (unfold running; now rewrite E6).
  split; [|auto]. split; [congruence|]. split; [congruence|]. split.
  { rewrite E2. apply NoDup_rev in N. rewrite <- (rev_involutive (rows c)).
    change [u] with (rev [u]). rewrite <- rev_app_distr. apply NoDup_rev. cbn. constructor; [|exact N].
    now rewrite <- in_rev. }
  split.
  { intros v. rewrite E2, in_app_iff. destruct (Nat.eq_dec v u) as [->|D].
    - split; [intros _; exact RU|intros _; right; now left].
    - rewrite (RR v D), <- R. cbn [In]. split; [|auto]. intros [I|[I|[]]]; [exact I|congruence]. }
  split.
  { intros v k' W. destruct (Nat.eq_dec v u) as [->|D].
    - rewrite E6 in W. cbn [at_stage] in W. congruence.
    - rewrite (E5 v D) in W. specialize (K v k' W). rewrite (E8 k' K). exact E7. }
  intros v V x _. rewrite E1. destruct (Nat.eq_dec v u) as [->|D].
  - rewrite E6. cbn [local]. apply Fx.
  - rewrite (E5 v D). rewrite (RR v D) in V. apply S; [exact V|]. intros t. rewrite T. intros [].
Qed.

Lemma stopped : forall c u, healthy c -> healthy (run storage_schema c [Stop u]).
Proof.
  intros c u (T & H & N & R & K & S). cbn [run fold_left step]. destruct (running c u) eqn:U; [|now repeat split; auto; apply R].
  rewrite T, H. cbn [lost existsb without_origin filter orb].
  assert (X : forall v, running (Cluster (remote c) (filter (fun v => negb (v =? u)) (rows c)) (keys c)
            (update (nodes c) u (Node (local (nodes c u)) Stopped)) [] false) v
            = if v =? u then false else running c v).
  { intros v. unfold running. cbn [nodes]. unfold update. now destruct (v =? u). }
  split; [reflexivity|]. split; [reflexivity|]. split; [now apply NoDup_filter|]. split.
  { intros v. rewrite X. cbn [rows]. rewrite filter_In, R. destruct (v =? u); cbn [negb]; intuition congruence. }
  split.
  { intros v k. cbn [nodes keys]. unfold update. destruct (v =? u); [discriminate|apply K]. }
  intros v V x _. rewrite X in V. cbn [nodes remote]. unfold update. destruct (v =? u); [discriminate|].
  apply S; [exact V|]. intros t. rewrite T. intros [].
Qed.

Lemma new_healthy : forall ts loc, healthy (new_cluster ts loc).
Proof.
  intros ts loc. split; [reflexivity|]. split; [reflexivity|]. split; [constructor|].
  split; [intros u; split; [intros []|discriminate]|]. split; [discriminate|]. intros u U. discriminate.
Qed.
End Definitions.
