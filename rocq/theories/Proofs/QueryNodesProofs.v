(** Which nodes execute queries. *)
From Coq Require Import ZArith Bool String List Lia.
From Verif Require Import Model.QueryNodes Spec.QueryNodesSpec.
Import ListNotations.
Open Scope list_scope.

Lemma run_app : forall a b c, run (a ++ b) c = match run a c with Some c => run b c | None => None end.
Proof.
  intros a. induction a as [|e a IH]; intros b c; [reflexivity|]. cbn [app run].
  destruct (step e c); [apply IH | reflexivity].
Qed.

Lemma along_app : forall P a b c, along P (a ++ b) c ->
  along P a c /\ forall c', run a c = Some c' -> along P b c'.
Proof.
  intros P a. induction a as [|e a IH]; intros b c H.
  - split; [exact I|]. intros c' [= <-]. exact H.
  - cbn [app along run] in *. destruct H as [He H]. destruct (step e c) as [c1|].
    + destruct (IH _ _ H) as [H1 H2]. now split.
    + split; [now split | discriminate].
Qed.

Lemma nth_set : forall {A} i j (a : A) l, nth_error (set_nth i a l) j
  = if Nat.eqb i j then match nth_error l j with Some _ => Some a | None => None end
    else nth_error l j.
Proof.
  intros A i. induction i as [|i IH]; intros j a l.
  - destruct l, j; reflexivity.
  - destruct l as [|b l]; [destruct j; cbn; [reflexivity|]; now destruct (Nat.eqb i j)|].
    destruct j; [reflexivity|]. cbn [set_nth nth_error Nat.eqb]. apply IH.
Qed.

Lemma set_length : forall {A} i (a : A) l, List.length (set_nth i a l) = List.length l.
Proof.
  intros A i. induction i as [|i IH]; intros a l; destruct l; cbn; try reflexivity. now rewrite IH.
Qed.

(** What an event does to the processes. *)
Inductive changes (c : cluster) : event -> list process -> Prop :=
| Added : forall u m rows, changes c (Start u m rows) (processes c ++ [Process u m Starting rows])
| Replaced : forall e i p p', nth_error (processes c) i = Some p ->
    url p' = url p -> as_mode p' = as_mode p ->
    match e with
    | Ready j => i = j /\ at_stage p = Starting /\ at_stage p' = Running
    | Fail j => i = j /\ at_stage p <> Ended /\ at_stage p' = Ended
    | Remove j => i = j /\ at_stage p = Running /\ at_stage p' = Leaving
    | Exit j => i = j /\ at_stage p = Leaving /\ at_stage p' = Ended
    | Insert j _ | Transfer j => i = j /\ at_stage p = Running /\ at_stage p' = Running
    | _ => False
    end ->
    changes c e (set_nth i p' (processes c))
| Unchanged : forall e, match e with Ask _ _ | Answer _ _ | Give_up _ => True | _ => False end ->
    changes c e (processes c).

Lemma step_changes : forall e c c', step e c = Some c' -> changes c e (processes c').
Proof.
  intros e c c' H. destruct e as [u m rows|i|i|i|i|i z|i|i k|j i|j]; cbn [step] in H.
  - injection H as <-. constructor.
  - destruct (nth_error (processes c) i) as [[u m s l]|] eqn:E; [|discriminate].
    destruct s; try discriminate. injection H as <-.
    apply Replaced with (1 := E); cbn; auto.
  - destruct (nth_error (processes c) i) as [[u m s l]|] eqn:E; [|discriminate].
    destruct s; try discriminate; injection H as <-;
      (apply Replaced with (1 := E); cbn; auto; repeat split; discriminate).
  - destruct (nth_error (processes c) i) as [[u m s l]|] eqn:E; [|discriminate].
    destruct s; try discriminate. injection H as <-.
    apply Replaced with (1 := E); cbn; auto.
  - destruct (nth_error (processes c) i) as [[u m s l]|] eqn:E; [|discriminate].
    destruct s; try discriminate. injection H as <-.
    apply Replaced with (1 := E); cbn; auto.
  - destruct (nth_error (processes c) i) as [[u m s l]|] eqn:E; [|discriminate].
    destruct s; try discriminate. injection H as <-.
    apply Replaced with (1 := E); cbn; auto.
  - destruct (nth_error (processes c) i) as [[u m s l]|] eqn:E; [|discriminate].
    destruct s; try discriminate. injection H as <-.
    apply Replaced with (1 := E); cbn; auto.
  - destruct (nth_error (processes c) i) as [[u m s l]|] eqn:E; [|discriminate].
    destruct s; try discriminate.
    destruct (cloud_nodes c) as [|v l']; [injection H as <-; cbn [processes]; now apply Unchanged|].
    destruct (nth_error (v :: l') k); [injection H as <-; cbn [processes]; now apply Unchanged | discriminate].
  - destruct (nth_error (queries c) j) as [[[u|] [| |]]|]; try discriminate.
    destruct (nth_error (processes c) i) as [p|]; [|discriminate].
    destruct (serves u p); [injection H as <-; cbn [processes]; now apply Unchanged | discriminate].
  - destruct (nth_error (queries c) j) as [[[u|] [| |]]|]; try discriminate.
    destruct (existsb (serves u) (processes c)); [discriminate | injection H as <-; cbn [processes]; now apply Unchanged].
Qed.

(** What an event does to the table with nodes. *)
Lemma step_listed : forall e c c', step e c = Some c' ->
  listed c' = match e with
              | Start u m _ => listed c ++ [(u, m)]
              | Remove i =>
                  match nth_error (processes c) i with
                  | Some p => filter (fun n => negb (String.eqb (fst n) (url p))) (listed c)
                  | None => listed c
                  end
              | _ => listed c
              end.
Proof.
  intros e c c' H. destruct e as [u m rows|i|i|i|i|i z|i|i k|j i|j]; cbn [step] in H;
    [injection H as <-; reflexivity | | | | | | | | |];
    try (destruct (nth_error (processes c) i) as [[u m s l]|] eqn:E; [|discriminate];
         destruct s; try discriminate; injection H as <-; reflexivity).
  - destruct (nth_error (processes c) i) as [[u m s l]|] eqn:E; [|discriminate].
    destruct s; try discriminate.
    destruct (cloud_nodes c) as [|v l']; [injection H as <-; reflexivity|].
    destruct (nth_error (v :: l') k); [injection H as <-; reflexivity | discriminate].
  - destruct (nth_error (queries c) j) as [[[u|] [| |]]|]; try discriminate.
    destruct (nth_error (processes c) i) as [p|]; [|discriminate].
    destruct (serves u p); [injection H as <-; reflexivity | discriminate].
  - destruct (nth_error (queries c) j) as [[[u|] [| |]]|]; try discriminate.
    destruct (existsb (serves u) (processes c)); [discriminate | injection H as <-; reflexivity].
Qed.

(** ** The table with nodes *)

Definition known (c : cluster) : list (string * mode) :=
  map (fun p => (url p, as_mode p)) (processes c).

Lemma map_set_same : forall {A B} (f : A -> B) i a l b, nth_error l i = Some b -> f a = f b ->
  map f (set_nth i a l) = map f l.
Proof.
  intros A B f i. induction i as [|i IH]; intros a l b E F; destruct l as [|x l]; try discriminate.
  - injection E as ->. cbn. now rewrite F.
  - cbn. f_equal. exact (IH _ _ _ E F).
Qed.

Lemma known_step : forall e c c', step e c = Some c' ->
  known c' = match e with Start u m _ => known c ++ [(u, m)] | _ => known c end.
Proof.
  intros e c c' H. unfold known. destruct (step_changes _ _ _ H) as [u m rows|e i p p' E U M S|e S].
  - now rewrite map_app.
  - rewrite (map_set_same _ _ _ _ _ E) by now rewrite U, M. now destruct e.
  - now destruct e.
Qed.

Definition modes_of (u : string) (l : list (string * mode)) : list mode :=
  map snd (filter (fun n => String.eqb (fst n) u) l).

Lemma modes_app : forall u a b, modes_of u (a ++ b) = modes_of u a ++ modes_of u b.
Proof. intros u a b. unfold modes_of. now rewrite filter_app, map_app. Qed.

Lemma modes_removed : forall u v l,
  modes_of u (filter (fun n => negb (String.eqb (fst n) v)) l)
  = if String.eqb v u then [] else modes_of u l.
Proof.
  intros u v l. induction l as [|[w m] l IH]; cbn.
  - now destruct (String.eqb v u).
  - destruct (String.eqb_spec w v) as [->|N]; cbn.
    + unfold modes_of in IH |- *. rewrite IH. cbn. now destruct (String.eqb v u).
    + unfold modes_of in IH |- *. cbn. destruct (String.eqb_spec w u) as [->|N'].
      * cbn. rewrite IH. destruct (String.eqb_spec v u) as [->|]; [contradiction | reflexivity].
      * exact IH.
Qed.

Lemma listed_since : forall events c c' u, run events c = Some c' ->
  modes_of u (listed c') = since_removal u (known c) (modes_of u (listed c)) events.
Proof.
  intros events. induction events as [|e events IH]; intros c c' u H.
  - injection H as ->. reflexivity.
  - cbn [run] in H. destruct (step e c) as [c1|] eqn:S; [|discriminate].
    rewrite (IH _ _ u H), (known_step _ _ _ S), (step_listed _ _ _ S).
    destruct e as [v m rows|i|i|i|i|i z|i|i k|j i|j]; cbn [since_removal]; try reflexivity.
    + rewrite modes_app. unfold modes_of at 2. cbn. destruct (String.eqb v u); cbn; [reflexivity|].
      now rewrite app_nil_r.
    + replace (nth_error (known c) i)
        with (option_map (fun p => (url p, as_mode p)) (nth_error (processes c) i))
        by (symmetry; apply nth_error_map).
      destruct (nth_error (processes c) i) as [p|]; cbn; [|reflexivity].
      now rewrite modes_removed.
Qed.

(** The table with nodes has, for each url, the modes in which nodes were started there since one was
    last removed. *)
Lemma listed_exactly : forall rows events c u, run events (new rows) = Some c ->
  map snd (filter (fun n => String.eqb (fst n) u) (listed c)) = expected u events.
Proof. intros rows events c u H. exact (listed_since _ _ _ u H). Qed.

Lemma in_modes : forall u m l, In m (modes_of u l) <-> In (u, m) l.
Proof.
  intros u m l. unfold modes_of. rewrite in_map_iff. split.
  - intros ([v m'] & <- & Hi). apply filter_In in Hi. destruct Hi as [Hi E].
    apply String.eqb_eq in E. cbn in E. subst. exact Hi.
  - intros H. exists (u, m). split; [reflexivity|]. apply filter_In. split; [exact H|].
    apply String.eqb_refl.
Qed.

Lemma in_cloud : forall u c, In u (cloud_nodes c) <-> In (u, Cloud) (listed c).
Proof.
  intros u c. unfold cloud_nodes. rewrite in_map_iff. split.
  - intros ([v m] & <- & H). apply filter_In in H. destruct H as [H M]. now destruct m.
  - intros H. exists (u, Cloud). split; [reflexivity|]. apply filter_In. now split.
Qed.

(** A query can be assigned to a url exactly if a cloud node was started there since one was last
    removed. *)
Lemma assigned_iff : forall rows events c i u, run events (new rows) = Some c ->
  (exists p, nth_error (processes c) i = Some p /\ at_stage p = Running) ->
  ((exists k c', step (Ask i k) c = Some c' /\ queries c' = queries c ++ [Query (Some u) Waiting])
   <-> In Cloud (expected u events)).
Proof.
  intros rows events c i u H (p & E & R).
  rewrite <- (listed_exactly _ _ _ u H). fold (modes_of u (listed c)).
  rewrite in_modes, <- in_cloud. destruct p as [v m s l]. cbn in R. subst s.
  cbn [step]. rewrite E. split.
  - intros (k & c' & S & Q). destruct (cloud_nodes c) as [|w l'] eqn:N.
    + injection S as <-. cbn in Q. apply app_inv_head in Q. discriminate.
    + destruct (nth_error (w :: l') k) as [w'|] eqn:K; [|discriminate]. injection S as <-. cbn in Q.
      apply app_inv_head in Q. injection Q as ->. exact (nth_error_In _ _ K).
  - intros Hi. destruct (In_nth_error _ _ Hi) as [k K]. exists k.
    destruct (cloud_nodes c) as [|w l'] eqn:N; [contradiction|]. rewrite K.
    eexists. split; reflexivity.
Qed.

(** A query is refused exactly if this is so for no url. *)
Lemma refused_iff : forall rows events c i k, run events (new rows) = Some c ->
  (exists p, nth_error (processes c) i = Some p /\ at_stage p = Running) ->
  ((exists c', step (Ask i k) c = Some c' /\ queries c' = queries c ++ [Query None Waiting])
   <-> forall u, ~ In Cloud (expected u events)).
Proof.
  intros rows events c i k H (p & E & R).
  destruct p as [v m s l]. cbn in R. subst s. cbn [step]. rewrite E. split.
  - intros (c' & S & Q) u. rewrite <- (listed_exactly _ _ _ u H). fold (modes_of u (listed c)).
    rewrite in_modes, <- in_cloud. destruct (cloud_nodes c) as [|w l'] eqn:N; [intros []|].
    destruct (nth_error (w :: l') k) as [w'|]; [|discriminate]. injection S as <-. cbn in Q.
    apply app_inv_head in Q. discriminate.
  - intros Hn. destruct (cloud_nodes c) as [|w l'] eqn:N; [eexists; split; reflexivity|].
    exfalso. apply (Hn w). rewrite <- (listed_exactly _ _ _ w H). fold (modes_of w (listed c)).
    rewrite in_modes, <- in_cloud, N. now left.
Qed.

(** ** Executions in which processes have different urls *)

Definition present (p : process) : bool :=
  match at_stage p with Starting | Running => true | _ => false end.

Definition different (c : cluster) : Prop :=
  forall i j p q, nth_error (processes c) i = Some p -> nth_error (processes c) j = Some q ->
  at_stage p <> Ended -> at_stage q <> Ended -> url p = url q -> i = j.
Definition complete (c : cluster) : Prop :=
  forall i p, nth_error (processes c) i = Some p -> present p = true ->
  In (url p, as_mode p) (listed c).
Definition exact_list (c : cluster) : Prop :=
  NoDup (map fst (listed c))
  /\ forall u m, In (u, m) (listed c) ->
     exists i p, nth_error (processes c) i = Some p /\ url p = u /\ as_mode p = m /\ present p = true.

Lemma nth_error_snoc : forall {A} (l : list A) a i b, nth_error (l ++ [a]) i = Some b ->
  nth_error l i = Some b \/ (i = List.length l /\ b = a).
Proof.
  intros A l a i b H. destruct (Nat.lt_ge_cases i (List.length l)) as [L|L].
  - left. now rewrite nth_error_app1 in H.
  - right. rewrite nth_error_app2 in H by exact L. destruct (i - List.length l) as [|n] eqn:E.
    + injection H as <-. split; [lia | reflexivity].
    + destruct n; discriminate.
Qed.

(** A process after an event was there before it, with the same url and mode. *)
Lemma step_process : forall e c c' i p, step e c = Some c' -> nth_error (processes c') i = Some p ->
  (exists q, nth_error (processes c) i = Some q /\ url p = url q /\ as_mode p = as_mode q
     /\ (at_stage p <> Ended -> at_stage q <> Ended) /\ (present p = true -> present q = true)
     /\ (present p = true -> forall j, e = Remove j -> j <> i))
  \/ (exists u m rows, e = Start u m rows /\ i = List.length (processes c)
        /\ p = Process u m Starting rows).
Proof.
  intros e c c' i p S E. destruct (step_changes _ _ _ S) as [u m rows|e j q q' Q U M Hs|e Hs].
  - destruct (nth_error_snoc _ _ _ _ E) as [E'|[-> ->]].
    + left. exists p. split; [exact E'|]. split; [reflexivity|]. split; [reflexivity|].
      split; [auto|]. split; [auto|]. discriminate.
    + right. now exists u, m, rows.
  - left. rewrite nth_set in E. destruct (Nat.eqb_spec j i) as [->|N].
    + rewrite Q in E. injection E as <-. exists q. split; [exact Q|]. split; [exact U|].
      split; [exact M|].
      destruct e; try contradiction; destruct Hs as (<- & A & B); unfold present; rewrite B;
        try rewrite A; (split; [congruence|]); (split; [congruence|]); discriminate.
    + exists p. split; [exact E|]. split; [reflexivity|]. split; [reflexivity|]. split; [auto|].
      split; [auto|]. intros _ k ->. destruct Hs as (-> & _). exact N.
  - left. exists p. split; [exact E|]. split; [reflexivity|]. split; [reflexivity|]. split; [auto|].
    split; [auto|]. intros _ k ->. contradiction.
Qed.

Lemma different_step : forall e c c', different c -> distinct_urls e c -> step e c = Some c' ->
  different c'.
Proof.
  intros e c c' D U S i j p q Ei Ej Hp Hq Hu.
  destruct (step_process _ _ _ _ _ S Ei) as [(p0 & E0 & U0 & _ & N0 & _)|(u & m & r & -> & -> & ->)];
    destruct (step_process _ _ _ _ _ S Ej) as [(q0 & F0 & V0 & _ & M0 & _)|(v & n & r' & He & -> & ->)].
  - refine (D i j p0 q0 E0 F0 (N0 Hp) (M0 Hq) _). congruence.
  - subst e. exfalso. apply (N0 Hp). apply U; [exact (nth_error_In _ _ E0)|]. cbn in Hu. congruence.
  - exfalso. apply (M0 Hq). apply U; [exact (nth_error_In _ _ F0)|]. cbn in Hu. congruence.
  - reflexivity.
Qed.

Lemma complete_step : forall e c c', different c -> complete c -> step e c = Some c' -> complete c'.
Proof.
  intros e c c' D L S i p E P. rewrite (step_listed _ _ _ S).
  destruct (step_process _ _ _ _ _ S E) as [(q & F & U & M & N & Pq & R)|(u & m & r & -> & -> & ->)].
  - specialize (L i q F (Pq P)). rewrite <- U, <- M in L.
    destruct e as [v m rows|j|j|j|j|j z|j|j k|k j|k]; try exact L.
    + apply in_or_app. now left.
    + destruct (nth_error (processes c) j) as [q'|] eqn:F'; [|exact L].
      apply filter_In. split; [exact L|]. cbn. apply negb_true_iff. apply String.eqb_neq. intros X.
      apply (R P j eq_refl). cbn [step] in S. rewrite F' in S.
      destruct q' as [w n st rs]. destruct st; try discriminate.
      apply (D j i _ _ F' F).
      * discriminate.
      * intros Z. specialize (Pq P). unfold present in Pq. rewrite Z in Pq. discriminate.
      * cbn in *. congruence.
  - apply in_or_app. right. now left.
Qed.

Lemma different_run : forall events c c', different c -> complete c -> along distinct_urls events c ->
  run events c = Some c' -> different c' /\ complete c'.
Proof.
  intros events. induction events as [|e events IH]; intros c c' D L A R.
  - injection R as <-. now split.
  - cbn [along run] in A, R. destruct A as [A0 A]. destruct (step e c) as [c1|] eqn:S; [|discriminate].
    exact (IH c1 c' (different_step _ _ _ D A0 S) (complete_step _ _ _ D L S) A R).
Qed.

Lemma new_good : forall rows, different (new rows) /\ complete (new rows) /\ exact_list (new rows).
Proof.
  intros rows. split; [intros i j p q E; destruct i; discriminate|].
  split; [intros i p E; destruct i; discriminate|]. split; [constructor | intros u m []].
Qed.

Lemma nodup_filter : forall {A B} (f : A -> B) g l, NoDup (map f l) -> NoDup (map f (filter g l)).
Proof.
  intros A B f g l. induction l as [|a l IH]; intros H; [constructor|].
  inversion H as [|? ? H1 H2]; subst. cbn. destruct (g a); [|exact (IH H2)]. cbn. constructor.
  - intros Hi. apply H1. apply in_map_iff in Hi. destruct Hi as (b & <- & Hi).
    apply filter_In in Hi. apply in_map. exact (proj1 Hi).
  - exact (IH H2).
Qed.

Lemma nodup_snoc : forall {A} (l : list A) a, NoDup l -> ~ In a l -> NoDup (l ++ [a]).
Proof.
  intros A l a N H. induction N as [|b l Hb N IH]; cbn.
  - constructor; [intros [] | constructor].
  - constructor.
    + intros X. apply in_app_or in X. destruct X as [X|[<-|[]]]; [contradiction|]. apply H. now left.
    + apply IH. intros X. apply H. now right.
Qed.

Lemma kept_process : forall e c c' i p, step e c = Some c' -> nth_error (processes c) i = Some p ->
  exists p', nth_error (processes c') i = Some p' /\ url p' = url p /\ as_mode p' = as_mode p
    /\ (present p = true -> no_failure e c -> e <> Remove i -> present p' = true)
    /\ (serves (url p) p = true -> none_ends e -> serves (url p) p' = true).
Proof.
  intros e c c' i p S E. destruct (step_changes _ _ _ S) as [u m rows|e j q q' Q U M Hs|e Hs].
  - exists p. rewrite nth_error_app1 by (apply nth_error_Some; congruence). auto.
  - rewrite nth_set. destruct (Nat.eqb_spec j i) as [->|N].
    + rewrite Q. rewrite Q in E. injection E as ->. exists q'. split; [reflexivity|].
      split; [exact U|]. split; [exact M|].
      destruct e; try contradiction; destruct Hs as (<- & A & B); unfold present, serves;
        rewrite B, ?A, ?U, ?String.eqb_refl; cbn; split; auto; try discriminate; try congruence;
        try contradiction.
      intros P (x & X & Y) _. rewrite Q in X. injection X as <-. rewrite Y in P. discriminate.
    + exists p. auto.
  - exists p. auto.
Qed.

Lemma exact_step : forall e c c', different c -> complete c -> exact_list c -> distinct_urls e c ->
  no_failure e c -> step e c = Some c' -> exact_list c'.
Proof.
  intros e c c' D L (N & X) U F S.
  assert (Keep : forall u m, In (u, m) (listed c) -> (forall j q, e = Remove j ->
            nth_error (processes c) j = Some q -> url q <> u) ->
            exists i p, nth_error (processes c') i = Some p /\ url p = u /\ as_mode p = m
              /\ present p = true).
  { intros u m Hi Hr. destruct (X u m Hi) as (i & p & E & <- & <- & P).
    destruct (kept_process _ _ _ _ _ S E) as (p' & E' & U' & M' & P' & _).
    exists i, p'. split; [exact E'|]. split; [exact U'|]. split; [exact M'|].
    apply P'; [exact P | exact F|]. intros ->. exact (Hr i p eq_refl E eq_refl). }
  unfold exact_list. rewrite (step_listed _ _ _ S).
  destruct e as [v n rows|j|j|j|j|j z|j|j k|k j|k];
    try (split; [exact N | intros u m Hi; apply (Keep u m Hi); discriminate]).
  - split.
    + rewrite map_app. cbn. apply nodup_snoc; [exact N|]. intros Hi. apply in_map_iff in Hi.
      destruct Hi as ([w m] & Hw & Hi). cbn in Hw. subst w.
      destruct (X v m Hi) as (i & p & E & Hu & _ & P).
      specialize (U p (nth_error_In _ _ E) Hu). unfold present in P. rewrite U in P. discriminate.
    + intros u m Hi. apply in_app_or in Hi. destruct Hi as [Hi|[Hi|[]]].
      * apply (Keep u m Hi). discriminate.
      * injection Hi as -> ->. cbn [step] in S. injection S as <-. cbn.
        exists (List.length (processes c)), (Process u m Starting rows).
        rewrite nth_error_app2, Nat.sub_diag by lia. auto.
  - destruct (nth_error (processes c) j) as [q|] eqn:E.
    + split; [apply nodup_filter; exact N|]. intros u m Hi. apply filter_In in Hi.
      destruct Hi as [Hi Hn]. apply (Keep u m Hi). intros j' q' [= <-] E'. rewrite E in E'.
      injection E' as <-. apply negb_true_iff, String.eqb_neq in Hn. cbn in Hn. congruence.
    + cbn [step] in S. rewrite E in S. discriminate.
Qed.

Lemma exact_run : forall events c c', different c -> complete c -> exact_list c ->
  along distinct_urls events c -> along no_failure events c -> run events c = Some c' ->
  different c' /\ complete c' /\ exact_list c'.
Proof.
  intros events. induction events as [|e events IH]; intros c c' D L X A B R.
  - injection R as <-. now split.
  - cbn [along run] in A, B, R. destruct A as [A0 A], B as [B0 B].
    destruct (step e c) as [c1|] eqn:S; [|discriminate].
    exact (IH c1 c' (different_step _ _ _ D A0 S) (complete_step _ _ _ D L S)
             (exact_step _ _ _ D L X A0 B0 S) A B R).
Qed.

(** A cloud node that runs can be chosen, whatever crashed. *)
Lemma running_chosen : forall rows events c i u, run events (new rows) = Some c ->
  along distinct_urls events (new rows) ->
  (exists p, nth_error (processes c) i = Some p /\ at_stage p = Running) -> available u c ->
  (exists k c', step (Ask i k) c = Some c' /\ queries c' = queries c ++ [Query (Some u) Waiting])
  /\ forall k c', step (Ask i k) c = Some c' -> queries c' <> queries c ++ [Query None Waiting].
Proof.
  intros rows events c i u R A Hi (p & Hp & <- & M & St).
  destruct (new_good rows) as (D0 & L0 & _). destruct (different_run _ _ _ D0 L0 A R) as [D L].
  destruct (In_nth_error _ _ Hp) as [j E].
  assert (Hl : In Cloud (expected (url p) events)).
  { rewrite <- (listed_exactly _ _ _ (url p) R). fold (modes_of (url p) (listed c)).
    rewrite in_modes, <- M. apply (L j p E). unfold present. now rewrite St. }
  split; [exact (proj2 (assigned_iff _ _ _ _ _ R Hi) Hl)|].
  intros k c' S Q.
  exact (proj1 (refused_iff _ _ _ _ k R Hi) (ex_intro _ c' (conj S Q)) (url p) Hl).
Qed.

(** If no process has failed, each choice is a different node. *)
Lemma balanced : forall rows events c i k k' c1 c2, run events (new rows) = Some c ->
  along distinct_urls events (new rows) -> along no_failure events (new rows) ->
  step (Ask i k) c = Some c1 -> step (Ask i k') c = Some c2 ->
  (exists u, queries c1 = queries c ++ [Query (Some u) Waiting]) ->
  queries c1 = queries c2 -> k = k'.
Proof.
  intros rows events c i k k' c1 c2 R A B S1 S2 (u & Q) Q2.
  destruct (new_good rows) as (D0 & L0 & X0).
  destruct (exact_run _ _ _ D0 L0 X0 A B R) as (_ & _ & N & _). cbn [step] in S1, S2.
  destruct (nth_error (processes c) i) as [[v m s l]|]; [|discriminate].
  destruct s; try discriminate.
  assert (N' : NoDup (cloud_nodes c)) by (unfold cloud_nodes; apply nodup_filter; exact N).
  destruct (cloud_nodes c) as [|w l'].
  - injection S1 as <-. cbn in Q. apply app_inv_head in Q. discriminate.
  - destruct (nth_error (w :: l') k) as [a|] eqn:K; [|discriminate].
    destruct (nth_error (w :: l') k') as [b|] eqn:K'; [|discriminate].
    injection S1 as <-. injection S2 as <-. cbn in Q2. apply app_inv_head in Q2.
    injection Q2 as ->. apply (proj1 (NoDup_nth_error _) N').
    + apply nth_error_Some. congruence.
    + congruence.
Qed.

Lemma remote_step : forall e c c', step e c = Some c' -> incl (remote c) (remote c').
Proof.
  intros e c c' H. destruct e as [u m rows|i|i|i|i|i z|i|i k|j i|j]; cbn [step] in H;
    [injection H as <-; apply incl_refl | | | | | | | | |];
    try (destruct (nth_error (processes c) i) as [[u m s l]|] eqn:E; [|discriminate];
         destruct s; try discriminate; injection H as <-; apply incl_refl).
  - destruct (nth_error (processes c) i) as [[u m s l]|] eqn:E; [|discriminate].
    destruct s; try discriminate. injection H as <-. cbn. apply incl_appr, incl_refl.
  - destruct (nth_error (processes c) i) as [[u m s l]|] eqn:E; [|discriminate].
    destruct s; try discriminate.
    destruct (cloud_nodes c) as [|v l']; [injection H as <-; apply incl_refl|].
    destruct (nth_error (v :: l') k); [injection H as <-; apply incl_refl | discriminate].
  - destruct (nth_error (queries c) j) as [[[u|] [| |]]|]; try discriminate.
    destruct (nth_error (processes c) i) as [p|]; [|discriminate].
    destruct (serves u p); [injection H as <-; apply incl_refl | discriminate].
  - destruct (nth_error (queries c) j) as [[[u|] [| |]]|]; try discriminate.
    destruct (existsb (serves u) (processes c)); [discriminate | injection H as <-; apply incl_refl].
Qed.

Lemma remote_run : forall events c c', run events c = Some c' -> incl (remote c) (remote c').
Proof.
  intros events. induction events as [|e events IH]; intros c c' R.
  - injection R as <-. apply incl_refl.
  - cbn [run] in R. destruct (step e c) as [c1|] eqn:S; [|discriminate].
    exact (incl_tran (remote_step _ _ _ S) (IH _ _ R)).
Qed.

Lemma serving_run : forall events c c' i p, run events c = Some c' -> Forall none_ends events ->
  nth_error (processes c) i = Some p -> serves (url p) p = true ->
  exists p', nth_error (processes c') i = Some p' /\ url p' = url p /\ as_mode p' = as_mode p
    /\ serves (url p) p' = true.
Proof.
  intros events. induction events as [|e events IH]; intros c c' i p R N E V.
  - injection R as <-. now exists p.
  - cbn [run] in R. destruct (step e c) as [c1|] eqn:S; [|discriminate].
    destruct (kept_process _ _ _ _ _ S E) as (p1 & E1 & U1 & M1 & _ & V1).
    specialize (V1 V (Forall_inv N)). rewrite <- U1 in V1.
    destruct (IH c1 c' i p1 R (Forall_inv_tail N) E1 V1) as (p' & E' & U' & M' & V').
    exists p'. split; [exact E'|]. split; [congruence|]. split; [congruence|]. congruence.
Qed.

Lemma serves_spec : forall u p, serves u p = true -> url p = u /\ at_stage p <> Ended.
Proof.
  intros u p H. unfold serves in H. apply andb_true_iff in H. destruct H as [U V].
  apply String.eqb_eq in U. split; [exact U|]. intros X. rewrite X in V. discriminate.
Qed.

(** A query is executed by the cloud node it is assigned to, on all rows that were transferred before
    it was asked. *)
Lemma executed : forall rows before c i k u after c2 j,
  run before (new rows) = Some c ->
  run (Ask i k :: after) c = Some c2 ->
  along distinct_urls (before ++ Ask i k :: after) (new rows) ->
  along no_failure before (new rows) -> none_starting c -> Forall none_ends after ->
  j = List.length (queries c) ->
  nth_error (queries c2) j = Some (Query (Some u) Waiting) ->
  step (Give_up j) c2 = None
  /\ (exists p c3, step (Answer j p) c2 = Some c3)
  /\ forall p c3, step (Answer j p) c2 = Some c3 ->
     exists result, nth_error (queries c3) j = Some (Query (Some u) (Rows result))
       /\ incl (remote c) result.
Proof.
  intros rows before c i k u after c2 j R R2 A B NS NE Hj Q.
  destruct (new_good rows) as (D0 & L0 & X0). destruct (along_app _ _ _ _ A) as [A1 A2].
  destruct (exact_run _ _ _ D0 L0 X0 A1 B R) as (D & L & X).
  destruct (different_run _ _ _ D L (A2 c R) R2) as [D2 _].
  assert (Rem : incl (remote c) (remote c2)) by exact (remote_run _ _ _ R2).
  cbn [run] in R2. destruct (step (Ask i k) c) as [c1|] eqn:S; [|discriminate].
  (* the query is still assigned to the same url *)
  assert (Same : forall events c c' j q, run events c = Some c' -> nth_error (queries c) j = Some q ->
            exists q', nth_error (queries c') j = Some q' /\ assigned q' = assigned q).
  { clear. intros events. induction events as [|e events IH]; intros c c' j q R E.
    - injection R as <-. now exists q.
    - cbn [run] in R. destruct (step e c) as [c1|] eqn:S; [|discriminate].
      assert (Hq : exists q1, nth_error (queries c1) j = Some q1 /\ assigned q1 = assigned q).
      { assert (Keep : queries c1 = queries c -> exists q1, nth_error (queries c1) j = Some q1
                  /\ assigned q1 = assigned q) by (intros ->; now exists q).
        destruct e as [u m rows|i|i|i|i|i z|i|i k|j' i|j']; cbn [step] in S;
          [injection S as <-; now apply Keep | | | | | | | | |];
          try (destruct (nth_error (processes c) i) as [[u m s l]|]; [|discriminate];
               destruct s; try discriminate; injection S as <-; now apply Keep).
        - destruct (nth_error (processes c) i) as [[u m s l]|]; [|discriminate].
          destruct s; try discriminate. exists q. split; [|reflexivity].
          assert (Len : j < List.length (queries c)) by (apply nth_error_Some; congruence).
          destruct (cloud_nodes c) as [|v l'].
          + injection S as <-. cbn. now rewrite nth_error_app1.
          + destruct (nth_error (v :: l') k); [|discriminate]. injection S as <-. cbn.
            now rewrite nth_error_app1.
        - destruct (nth_error (queries c) j') as [[[u|] [| |]]|] eqn:E'; try discriminate.
          destruct (nth_error (processes c) i) as [p|]; [|discriminate].
          destruct (serves u p); [|discriminate]. injection S as <-. cbn. rewrite nth_set.
          destruct (Nat.eqb_spec j' j) as [->|N]; [|now exists q]. rewrite E.
          eexists. split; [reflexivity|]. rewrite E in E'. injection E' as ->. reflexivity.
        - destruct (nth_error (queries c) j') as [[[u|] [| |]]|] eqn:E'; try discriminate.
          destruct (existsb (serves u) (processes c)); [discriminate|]. injection S as <-. cbn.
          rewrite nth_set. destruct (Nat.eqb_spec j' j) as [->|N]; [|now exists q]. rewrite E.
          eexists. split; [reflexivity|]. rewrite E in E'. injection E' as ->. reflexivity. }
      destruct Hq as (q1 & E1 & H1). destruct (IH _ _ _ _ R E1) as (q' & E' & H').
      exists q'. split; [exact E' | congruence]. }
  assert (Hu : In u (cloud_nodes c) /\ processes c1 = processes c).
  { cbn [step] in S. destruct (nth_error (processes c) i) as [[v m s l]|]; [|discriminate].
    destruct s; try discriminate. destruct (cloud_nodes c) as [|w l'].
    - injection S as <-.
      destruct (Same _ _ _ j (Query None Waiting) R2) as (q' & E' & H').
      { cbn. subst j. now rewrite nth_error_app2, Nat.sub_diag by lia. }
      rewrite Q in E'. injection E' as <-. discriminate.
    - destruct (nth_error (w :: l') k) as [a|] eqn:K; [|discriminate]. injection S as <-.
      destruct (Same _ _ _ j (Query (Some a) Waiting) R2) as (q' & E' & H').
      { cbn. subst j. now rewrite nth_error_app2, Nat.sub_diag by lia. }
      rewrite Q in E'. injection E' as <-. cbn in H'. injection H' as ->.
      split; [exact (nth_error_In _ _ K) | reflexivity]. }
  destruct Hu as [Hu Hp]. apply in_cloud in Hu.
  destruct (proj2 X u Cloud Hu) as (n & p & E & Up & Mp & Pp).
  assert (V : serves (url p) p = true).
  { unfold serves. rewrite String.eqb_refl. unfold present in Pp.
    specialize (NS p (nth_error_In _ _ E)). destruct (at_stage p); congruence || reflexivity. }
  rewrite <- Hp in E.
  destruct (serving_run _ _ _ _ _ R2 NE E V) as (p2 & E2 & U2 & M2 & V2). rewrite Up in V2.
  split; [|split].
  - cbn [step]. rewrite Q. replace (existsb (serves u) (processes c2)) with true; [reflexivity|].
    symmetry. apply existsb_exists. exists p2. split; [exact (nth_error_In _ _ E2) | exact V2].
  - exists n. cbn [step]. rewrite Q, E2, V2. eexists. reflexivity.
  - intros n' c3 S3. cbn [step] in S3. rewrite Q in S3.
    destruct (nth_error (processes c2) n') as [p'|] eqn:E'; [|discriminate].
    destruct (serves u p') eqn:V'; [|discriminate]. injection S3 as <-.
    destruct (serves_spec _ _ V') as [U3 N3]. destruct (serves_spec _ _ V2) as [U4 N4].
    assert (n' = n) by (apply (D2 n' n p' p2 E' E2 N3 N4); congruence). subst n'.
    rewrite E2 in E'. injection E' as <-. exists (query_rows p2 c2). cbn. rewrite nth_set, Nat.eqb_refl, Q.
    split; [reflexivity|]. unfold query_rows. rewrite M2, Mp. exact Rem.
Qed.
