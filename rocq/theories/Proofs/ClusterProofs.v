(** The tables of the nodes in a cluster: the number of times that tables are created and dropped. *)
From Coq Require Import ZArith Bool String List Lia.
From Verif Require Import Model.Base Model.Sql Model.Cluster Spec.StatementSpec Spec.ClusterSpec
  Proofs.SqlProofs.
Import ListNotations.
Open Scope nat_scope.
Open Scope list_scope.

(** Tables. *)
Lemma find_cons : forall x y d ts,
  find_table x ((y, d) :: ts) = if String.eqb y x then Some d else find_table x ts.
Proof. intros x y d ts. unfold find_table. cbn [find fst]. now destruct (String.eqb y x). Qed.
Lemma find_app : forall x ts ts', find_table x (ts ++ ts')
  = match find_table x ts with Some d => Some d | None => find_table x ts' end.
Proof.
  intros x ts ts'. induction ts as [|(y, d) ts IH]; [reflexivity|]. cbn [app]. rewrite !find_cons.
  now destruct (String.eqb y x).
Qed.
Lemma find_without : forall x y ts,
  find_table x (filter (fun p => negb (String.eqb (fst p) y)) ts)
  = if String.eqb x y then None else find_table x ts.
Proof.
  intros x y ts. induction ts as [|(z, d) ts IH].
  - cbn. now destruct (String.eqb x y).
  - cbn [filter fst]. destruct (String.eqb_spec z y) as [->|N]; cbn [negb].
    + rewrite IH, find_cons, (String.eqb_sym y x). now destruct (String.eqb x y).
    + rewrite !find_cons, IH. destruct (String.eqb_spec z x) as [->|N']; [|reflexivity].
      destruct (String.eqb_spec x y); [contradiction|reflexivity].
Qed.
Lemma has_iff : forall x ts, has_table x ts = true <-> find_table x ts <> None.
Proof. intros x ts. unfold has_table. destruct (find_table x ts); split; congruence. Qed.
Lemma hasn_iff : forall x ts, has_table x ts = false <-> find_table x ts = None.
Proof. intros x ts. unfold has_table. destruct (find_table x ts); split; congruence. Qed.

(** What requests do to tables. *)
Lemma create_ok : forall x d ts ts', create_table x d ts = (ts', true) ->
  find_table x ts = None
  /\ forall y, find_table y ts' = if String.eqb y x then Some d else find_table y ts.
Proof.
  intros x d ts ts' H. unfold create_table in H. destruct (has_table x ts) eqn:E; [discriminate|].
  apply hasn_iff in E. injection H as <-. split; [exact E|]. intros y.
  rewrite find_app, find_cons. rewrite (String.eqb_sym x y).
  destruct (String.eqb_spec y x) as [->|N]; [now rewrite E|]. now destruct (find_table y ts).
Qed.
Lemma create_none : forall x d ts, find_table x ts = None ->
  create_table x d ts = (ts ++ [(x, d)], true).
Proof. intros x d ts H. unfold create_table. apply hasn_iff in H. now rewrite H. Qed.
Lemma create_failed : forall x d ts ts', create_table x d ts = (ts', false) ->
  find_table x ts <> None /\ ts' = ts.
Proof.
  intros x d ts ts' H. unfold create_table in H. destruct (has_table x ts) eqn:E; [|discriminate].
  apply has_iff in E. now injection H as <-.
Qed.

Lemma drop_ok : forall xs ts ts', drop_tables xs ts = (ts', true) ->
  NoDup xs /\ (forall x, In x xs -> find_table x ts <> None)
  /\ forall y, find_table y ts' = if in_dec string_dec y xs then None else find_table y ts.
Proof.
  induction xs as [|x xs IH]; intros ts ts' H; cbn [drop_tables] in H.
  - injection H as <-. split; [constructor|]. split; [intros x []|]. intros y. reflexivity.
  - destruct (has_table x ts) eqn:E; [|discriminate]. apply has_iff in E.
    destruct (IH _ _ H) as (N & A & F). split; [|split].
    + constructor; [|exact N]. intros I. specialize (A x I). now rewrite find_without, String.eqb_refl in A.
    + intros y [<-|I]; [exact E|]. specialize (A y I). rewrite find_without in A.
      now destruct (String.eqb y x).
    + intros y. rewrite (F y), find_without.
      destruct (in_dec string_dec y (x :: xs)) as [I|N']; destruct (in_dec string_dec y xs) as [I'|N2];
        try reflexivity.
      * destruct I as [->|I]; [now rewrite String.eqb_refl|contradiction].
      * elim N'. now right.
      * destruct (String.eqb_spec y x) as [->|]; [|reflexivity]. elim N'. now left.
Qed.
Lemma drop_all : forall xs ts, NoDup xs -> (forall x, In x xs -> find_table x ts <> None) ->
  snd (drop_tables xs ts) = true.
Proof.
  induction xs as [|x xs IH]; intros ts N A; [reflexivity|]. cbn [drop_tables].
  inversion N as [|? ? N1 N2]; subst. rewrite (proj2 (has_iff x ts)) by (apply A; now left).
  apply IH; [exact N2|]. intros y I. rewrite find_without.
  destruct (String.eqb_spec y x) as [->|]; [contradiction|]. apply A. now right.
Qed.

Definition present (o : option table) : Z := match o with Some _ => 1 | None => 0 end.
Definition delta (r : request) (x : string) : Z :=
  match r with
  | Create y _ => if String.eqb y x then 1 else 0
  | Drop xs => if in_dec string_dec x xs then -1 else 0
  end.

Lemma execute_ok : forall r ts ts', execute r ts = (ts', true) ->
  forall x, present (find_table x ts') = (present (find_table x ts) + delta r x)%Z.
Proof.
  intros [x d|xs] ts ts' H y; cbn [execute delta] in *.
  - apply create_ok in H. destruct H as (E & F). rewrite (F y), (String.eqb_sym x y).
    destruct (String.eqb_spec y x) as [->|]; [rewrite E; reflexivity|lia].
  - apply drop_ok in H. destruct H as (_ & A & F). rewrite (F y).
    destruct (in_dec string_dec y xs) as [I|]; [|lia]. specialize (A y I).
    destruct (find_table y ts); [reflexivity|contradiction].
Qed.

Lemma peer_same : forall r ts, match r with Drop xs => Forall plain xs /\ xs <> [] | Create _ _ => True end ->
  execute_peer r ts = execute r ts.
Proof.
  intros [x d|xs] ts H; [reflexivity|]. destruct H as (F & N). cbn [execute_peer execute].
  now rewrite drop_text.
Qed.

(** Sums over tasks. *)
Fixpoint total (f : task -> Z) (l : list task) : Z :=
  match l with [] => 0 | t :: l => f t + total f l end%Z.
Lemma total_app : forall f l l', total f (l ++ l') = (total f l + total f l')%Z.
Proof. intros f l l'. induction l as [|t l IH]; [reflexivity|]. cbn [app total]. lia. Qed.
Lemma total_without : forall f i l t, nth_error l i = Some t ->
  total f (without_nth i l) = (total f l - f t)%Z.
Proof.
  intros f. induction i as [|i IH]; intros [|a l] t H; try discriminate; cbn [nth_error] in H.
  - injection H as ->. cbn [without_nth total]. lia.
  - cbn [without_nth total]. rewrite (IH l t H). lia.
Qed.
Lemma total_replace : forall f i l t t', nth_error l i = Some t ->
  total f (replace_nth i t' l) = (total f l - f t + f t')%Z.
Proof.
  intros f. induction i as [|i IH]; intros [|a l] t t' H; try discriminate; cbn [nth_error] in H.
  - injection H as ->. cbn [replace_nth total]. lia.
  - cbn [replace_nth total]. rewrite (IH l t t' H). lia.
Qed.
Lemma total_zero : forall f l, (forall t, In t l -> f t = 0%Z) -> total f l = 0%Z.
Proof.
  intros f l H. induction l as [|t l IH]; [reflexivity|]. cbn [total].
  rewrite (H t (or_introl eq_refl)), IH; [reflexivity|]. intros a I. apply H. now right.
Qed.
Lemma total_ext : forall f g l, (forall t, In t l -> f t = g t) -> total f l = total g l.
Proof.
  intros f g l H. induction l as [|t l IH]; [reflexivity|]. cbn [total].
  rewrite (H t (or_introl eq_refl)), IH; [reflexivity|]. intros a I. apply H. now right.
Qed.
Lemma in_replace : forall (A : Type) i (b a : A) l, In a (replace_nth i b l) -> a = b \/ In a l.
Proof.
  intros A. induction i as [|i IH]; intros b a [|c l] H; cbn in H; try contradiction.
  - destruct H as [->|H]; [now left|right; now right].
  - destruct H as [->|H]; [right; now left|]. destruct (IH _ _ _ H) as [->|I]; [now left|right; now right].
Qed.
Lemma in_without : forall (A : Type) i (a : A) l, In a (without_nth i l) -> In a l.
Proof.
  intros A. induction i as [|i IH]; intros a [|c l] H; cbn in H; try contradiction; [now right|].
  destruct H as [->|H]; [now left|right; now apply IH].
Qed.
Lemma not_lost : forall u l, lost u l = false -> without_origin u l = l /\ forall t, In t l -> origin t <> u.
Proof.
  intros u l. unfold lost, without_origin. induction l as [|t l IH]; intros H.
  - split; [reflexivity|intros t []].
  - cbn [existsb] in H. apply orb_false_iff in H. destruct H as (H1 & H2). destruct (IH H2) as (E & F).
    cbn [filter]. rewrite H1. cbn [negb]. split; [now rewrite E|]. intros t' [<-|I]; [|now apply F].
    now apply Nat.eqb_neq.
Qed.

(** How often a node is still to execute a request. *)
Definition due (w : nat) (t : task) : Z :=
  match reached t with
  | Reading => 1
  | Visiting peers =>
      Z.of_nat (count_occ Nat.eq_dec peers w) + (if Nat.eq_dec w (origin t) then 1 else 0)
  end.

Lemma remove_one_count : forall w l v, In w l ->
  Z.of_nat (count_occ Nat.eq_dec (remove_one w l) v)
  = (Z.of_nat (count_occ Nat.eq_dec l v) - (if Nat.eq_dec v w then 1 else 0))%Z.
Proof.
  intros w l v. induction l as [|a l IH]; intros I; [contradiction|]. cbn [remove_one].
  destruct (Nat.eqb_spec a w) as [->|N].
  - cbn [count_occ]. destruct (Nat.eq_dec w v), (Nat.eq_dec v w); lia.
  - destruct I as [->|I]; [contradiction|]. cbn [count_occ]. specialize (IH I).
    destruct (Nat.eq_dec a v); lia.
Qed.
Lemma count_filter : forall u w l, NoDup l -> In w l ->
  Z.of_nat (count_occ Nat.eq_dec (filter (fun v => negb (v =? u)) l) w)
  = (if Nat.eq_dec w u then 0 else 1)%Z.
Proof.
  intros u w l N I.
  assert (N' : NoDup (filter (fun v => negb (v =? u)) l)) by now apply NoDup_filter.
  destruct (Nat.eq_dec w u) as [->|D].
  - rewrite (proj1 (count_occ_not_In Nat.eq_dec _ u)); [reflexivity|]. intros J. apply filter_In in J.
    destruct J as (_ & J). now rewrite Nat.eqb_refl in J.
  - rewrite (proj1 (NoDup_count_occ' Nat.eq_dec _) N' w); [reflexivity|]. apply filter_In.
    split; [exact I|]. apply Nat.eqb_neq in D. now rewrite D.
Qed.

Section Invariant.
Variable storage_schema : Z -> Z.

(** Synchronization. *)
Lemma create_tables_ok : forall missing ts ts', create_tables missing ts = (ts', true) ->
  NoDup (map fst missing)
  /\ (forall x d, In (x, d) missing -> find_table x ts = None /\ find_table x ts' = Some d)
  /\ (forall x, ~ In x (map fst missing) -> find_table x ts' = find_table x ts).
Proof.
  induction missing as [|(x, d) missing IH]; intros ts ts' H; cbn [create_tables] in H.
  - injection H as <-. split; [constructor|]. split; [intros x d []|auto].
  - destruct (create_table x d ts) as (ts1, [|]) eqn:C; [|discriminate].
    apply create_ok in C. destruct C as (E & F). destruct (IH _ _ H) as (N & I & O).
    assert (X : ~ In x (map fst missing)).
    { intros J. apply in_map_iff in J. destruct J as ((y, d') & <- & J). destruct (I _ _ J) as (K & _).
      cbn [fst] in K. rewrite (F y), String.eqb_refl in K. discriminate. }
    split; [now constructor|]. split.
    + intros y d' [J|J].
      * injection J as <- <-. split; [exact E|]. rewrite (O x X), (F x). now rewrite String.eqb_refl.
      * destruct (I _ _ J) as (K1 & K2). split; [|exact K2]. rewrite (F y) in K1.
        now destruct (String.eqb y x).
    + intros y J. cbn [map fst In] in J. rewrite (O y) by tauto. rewrite (F y).
      destruct (String.eqb_spec y x) as [->|]; [tauto|reflexivity].
Qed.

Lemma missing_normal_ok : forall remote local missing,
  missing_normal storage_schema remote local = Some missing ->
  (forall x d, In (x, d) missing -> In (x, d) remote /\ exists s, d = Normal s)
  /\ (forall x s, In (x, Normal s) remote ->
        match find_table x local with
        | Some d => delta_schema storage_schema d = s
        | None => In (x, Normal s) missing
        end).
Proof.
  induction remote as [|(x, [s|m]) remote IH]; intros local missing H; cbn [missing_normal] in H.
  - injection H as <-. split; [intros x d []|intros x s []].
  - destruct (find_table x local) as [d|] eqn:E.
    + destruct (Z.eqb_spec (delta_schema storage_schema d) s) as [S|S]; [|discriminate].
      destruct (IH _ _ H) as (A & B). split.
      * intros y d' I. destruct (A _ _ I) as (I' & X). split; [now right|exact X].
      * intros y s' [I|I]; [|now apply B]. injection I as <- <-. now rewrite E.
    + destruct (missing_normal _ remote local) as [l|] eqn:M; [|discriminate]. injection H as <-.
      destruct (IH _ _ M) as (A & B). split.
      * intros y d' [I|I].
        -- injection I as <- <-. split; [now left|now exists s].
        -- destruct (A _ _ I) as (I' & X). split; [now right|exact X].
      * intros y s' [I|I].
        -- injection I as <- <-. rewrite E. now left.
        -- specialize (B _ _ I). destruct (find_table y local); [exact B|now right].
  - destruct (IH _ _ H) as (A & B). split.
    + intros y d I. destruct (A _ _ I) as (I' & X). split; [now right|exact X].
    + intros y s [I|I]; [discriminate|now apply B].
Qed.
Lemma missing_series_ok : forall remote local missing,
  missing_series remote local = Some missing ->
  (forall x d, In (x, d) missing -> In (x, d) remote /\ exists m, d = Series m)
  /\ (forall x m, In (x, Series m) remote ->
        find_table x local = Some (Series m) \/ In (x, Series m) missing).
Proof.
  induction remote as [|(x, [s|m]) remote IH]; intros local missing H; cbn [missing_series] in H.
  - injection H as <-. split; [intros x d []|intros x m []].
  - destruct (IH _ _ H) as (A & B). split.
    + intros y d I. destruct (A _ _ I) as (I' & X). split; [now right|exact X].
    + intros y m [I|I]; [discriminate|now apply B].
  - assert (G : forall l, missing_series remote local = Some l -> missing = (x, Series m) :: l ->
              (forall y d, In (y, d) missing -> In (y, d) ((x, Series m) :: remote) /\ exists m', d = Series m')
              /\ (forall y m', In (y, Series m') ((x, Series m) :: remote) ->
                    find_table y local = Some (Series m') \/ In (y, Series m') missing)).
    { intros l M ->. destruct (IH _ _ M) as (A & B). split.
      - intros y d [I|I].
        + injection I as <- <-. split; [now left|now exists m].
        + destruct (A _ _ I) as (I' & X). split; [now right|exact X].
      - intros y m' [I|I]; [right; now left|]. destruct (B _ _ I) as [L|L]; [now left|right; now right]. }
    destruct (find_table x local) as [[s|m']|] eqn:E.
    + destruct (missing_series remote local) as [l|]; [|discriminate]. injection H as <-. now apply (G l).
    + destruct (Z.eqb_spec m' m) as [->|]; [|discriminate]. destruct (IH _ _ H) as (A & B). split.
      * intros y d I. destruct (A _ _ I) as (I' & X). split; [now right|exact X].
      * intros y m' [I|I]; [injection I as <- <-; now left|now apply B].
    + destruct (missing_series remote local) as [l|]; [|discriminate]. injection H as <-. now apply (G l).
Qed.

Lemma find_In : forall x ts d, find_table x ts = Some d -> In (x, d) ts.
Proof.
  intros x ts d. induction ts as [|(y, e) ts IH]; [discriminate|]. rewrite find_cons.
  destruct (String.eqb_spec y x) as [->|]; intros H; [injection H as ->; now left|right; now apply IH].
Qed.
Lemma In_find : forall x ts d, NoDup (map fst ts) -> In (x, d) ts -> find_table x ts = Some d.
Proof.
  intros x ts d. induction ts as [|(y, e) ts IH]; intros N I; [contradiction|]. rewrite find_cons.
  cbn [map fst] in N. inversion N as [|? ? N1 N2]; subst. destruct I as [I|I].
  - injection I as -> ->. now rewrite String.eqb_refl.
  - destruct (String.eqb_spec y x) as [->|]; [|now apply IH]. elim N1. apply in_map_iff. now exists (x, d).
Qed.
Lemma In_has : forall x ts d, In (x, d) ts -> find_table x ts <> None.
Proof.
  intros x ts d. induction ts as [|(y, e) ts IH]; intros I; [contradiction|]. rewrite find_cons.
  destruct I as [I|I].
  - injection I as -> ->. rewrite String.eqb_refl. discriminate.
  - destruct (String.eqb y x); [discriminate|now apply IH].
Qed.

Lemma synchronized : forall remote local ts,
  NoDup (map fst remote) -> synchronize storage_schema remote local = (ts, true) ->
  forall x, match find_table x remote with
            | Some (Normal s) => exists d, find_table x ts = Some d /\ delta_schema storage_schema d = s
            | Some (Series m) => find_table x ts = Some (Series m)
            | None => find_table x ts = None
            end.
Proof.
  intros remote local ts N H x. unfold synchronize in H.
  destruct (exist_remotely local remote) eqn:E; [|discriminate].
  destruct (missing_normal storage_schema remote local) as [mn|] eqn:MN; [|discriminate].
  destruct (missing_series remote local) as [ms|] eqn:MS; [|discriminate].
  destruct (create_tables_ok _ _ _ H) as (_ & C & O).
  destruct (missing_normal_ok _ _ _ MN) as (NA & NB). destruct (missing_series_ok _ _ _ MS) as (SA & SB).
  assert (M : forall d, In (x, d) (mn ++ ms) -> In (x, d) remote).
  { intros d I. apply in_app_iff in I. destruct I as [I|I]; [now apply NA|now apply SA]. }
  destruct (find_table x remote) as [[s|m]|] eqn:F.
  - apply find_In in F as I. specialize (NB _ _ I). destruct (find_table x local) as [d|] eqn:L.
    + destruct (in_dec string_dec x (map fst (mn ++ ms))) as [J|J].
      * apply in_map_iff in J. destruct J as ((y, d') & <- & J). cbn [fst] in *.
        destruct (C _ _ J) as (K & _). congruence.
      * exists d. split; [now rewrite (O x J)|exact NB].
    + exists (Normal s). split; [|reflexivity]. apply (C x (Normal s)). apply in_app_iff. now left.
  - apply find_In in F as I. destruct (SB _ _ I) as [L|J].
    + destruct (in_dec string_dec x (map fst (mn ++ ms))) as [J|J].
      * apply in_map_iff in J. destruct J as ((y, d') & <- & J). cbn [fst] in *.
        destruct (C _ _ J) as (K & _). congruence.
      * now rewrite (O x J).
    + apply (C x (Series m)). apply in_app_iff. now right.
  - rewrite (O x).
    + unfold exist_remotely in E. rewrite forallb_forall in E. destruct (find_table x local) as [d|] eqn:L; [|reflexivity].
      apply find_In in L. specialize (E _ L). cbn [fst] in E. apply has_iff in E. contradiction.
    + intros J. apply in_map_iff in J. destruct J as ((y, d) & <- & J). cbn [fst] in *.
      specialize (M d J). apply In_has in M. contradiction.
Qed.

(** The invariant. *)
Definition balanced (c : cluster) : Prop :=
  NoDup (rows c) /\ NoDup (map fst (remote c))
  /\ (forall u, running c u = true -> In u (rows c))
  /\ (forall u, match at_stage (nodes c u) with Joining _ | Joined _ => False | _ => True end)
  /\ (forall t, In t (tasks c) ->
        match asked t with Drop xs => Forall plain xs /\ xs <> [] | Create _ _ => True end)
  /\ (forall u, running c u = true -> forall x,
        (present (find_table x (local (nodes c u)))
         + total (fun t => due u t * delta (asked t) x) (tasks c)
         = present (find_table x (remote c)))%Z).

Lemma create_names : forall x d ts ts', create_table x d ts = (ts', true) ->
  NoDup (map fst ts) -> NoDup (map fst ts').
Proof.
  intros x d ts ts' H N. unfold create_table in H. destruct (has_table x ts) eqn:E; [discriminate|].
  injection H as <-. rewrite map_app. cbn [map fst]. apply hasn_iff in E.
  assert (X : ~ In x (map fst ts)).
  { intros I. apply in_map_iff in I. destruct I as ((y, d') & <- & I). now apply In_has in I. }
  apply NoDup_rev in N. rewrite <- (rev_involutive (map fst ts)). 
  change [x] with (rev [x]). rewrite <- rev_app_distr. apply NoDup_rev. cbn. constructor; [|exact N].
  now rewrite <- in_rev.
Qed.
Lemma filter_names : forall (f : string * table -> bool) ts, NoDup (map fst ts) ->
  NoDup (map fst (filter f ts)).
Proof.
  intros f ts. induction ts as [|p ts IH]; intros N; [exact N|]. cbn [map] in N.
  inversion N as [|? ? N1 N2]; subst. cbn [filter]. destruct (f p); [|now apply IH]. cbn [map].
  constructor; [|now apply IH]. intros I. apply N1. apply in_map_iff in I. destruct I as (q & E & I).
  apply filter_In in I. apply in_map_iff. now exists q.
Qed.
Lemma drop_names : forall xs ts, NoDup (map fst ts) -> NoDup (map fst (fst (drop_tables xs ts))).
Proof.
  induction xs as [|x xs IH]; intros ts N; [exact N|]. cbn [drop_tables].
  destruct (has_table x ts); [|exact N]. apply IH. now apply filter_names.
Qed.
Lemma execute_names : forall r ts ts', execute r ts = (ts', true) -> NoDup (map fst ts) ->
  NoDup (map fst ts').
Proof.
  intros [x d|xs] ts ts' H N; cbn [execute] in H; [now apply (create_names x d ts)|].
  pose proof (drop_names xs ts N) as D. now rewrite H in D.
Qed.

Lemma drop_length : forall xs ts ts', drop_tables xs ts = (ts', false) ->
  List.length ts' = List.length ts -> ts' = ts.
Proof.
  assert (G : forall xs ts, List.length (fst (drop_tables xs ts)) <= List.length ts).
  { induction xs as [|x xs IH]; intros ts; [constructor|]. cbn [drop_tables].
    destruct (has_table x ts); [|constructor]. etransitivity; [apply IH|]. clear.
    induction ts as [|p ts IH]; [constructor|]. cbn [filter]. destruct (negb _); cbn [List.length]; lia. }
  intros [|x xs] ts ts' H L; cbn [drop_tables] in H; [discriminate|].
  destruct (has_table x ts) eqn:E; [|congruence]. exfalso. apply has_iff in E.
  assert (S : List.length (filter (fun p => negb (String.eqb (fst p) x)) ts) < List.length ts).
  { destruct (find_table x ts) as [d|] eqn:F; [|contradiction]. apply find_In in F. clear - F.
    induction ts as [|(y, e) ts IH]; [contradiction|]. cbn [filter fst List.length].
    assert (K : List.length (filter (fun p => negb (String.eqb (fst p) x)) ts) <= List.length ts).
    { clear. induction ts as [|p ts IH]; [constructor|]. cbn [filter]. destruct (negb _); cbn [List.length]; lia. }
    destruct F as [F|F].
    - injection F as -> ->. rewrite String.eqb_refl. cbn [negb]. lia.
    - specialize (IH F). destruct (negb _); cbn [List.length]; lia. }
  pose proof (G xs (filter (fun p => negb (String.eqb (fst p) x)) ts)) as G1. rewrite H in G1. cbn [fst] in G1. lia.
Qed.
Lemma execute_unchanged : forall r ts ts', execute r ts = (ts', false) ->
  List.length ts' = List.length ts -> ts' = ts.
Proof.
  intros [x d|xs] ts ts' H L; cbn [execute] in H; [now apply create_failed in H|].
  now apply (drop_length xs).
Qed.

Lemma running_update : forall c u n v, running (with_node c u n) v
  = if v =? u then match at_stage n with Running _ => true | _ => false end else running c v.
Proof.
  intros c u n v. unfold running, with_node, update. cbn [nodes]. now destruct (v =? u).
Qed.

Lemma nodes_update : forall c u n v, nodes (with_node c u n) v = if v =? u then n else nodes c v.
Proof. reflexivity. Qed.

Lemma start_result : forall c u key, at_stage (nodes c u) = Stopped ->
  let c' := run storage_schema c (events_of (Start u key)) in
  remote c' = remote c /\ rows c' = rows c ++ [u] /\ tasks c' = tasks c /\ harmed c' = harmed c
  /\ (forall v, v <> u -> nodes c' v = nodes c v)
  /\ exists ts ok k, synchronize storage_schema (remote c) (local (nodes c u)) = (ts, ok)
       /\ nodes c' u = Node ts (if ok then Running k else Stopped)
       /\ hd_error (keys c') = Some k
       /\ (forall k', hd_error (keys c) = Some k' -> k' = k).
Proof.
  intros c u key E.
  assert (U : forall f n, update f u n u = n) by (intros f n; unfold update; now rewrite Nat.eqb_refl).
  assert (V : forall f n v, v <> u -> update f u n v = f v).
  { intros f n v D. unfold update. apply Nat.eqb_neq in D. now rewrite D. }
  destruct (synchronize storage_schema (remote c) (local (nodes c u))) as (ts, ok) eqn:S.
  unfold run. cbn [events_of fold_left].
  set (c1 := step storage_schema c (Join u)). set (c2 := step storage_schema c1 (Choose u key)).
  assert (C1 : c1 = Cluster (remote c) (rows c ++ [u]) (keys c)
            (update (nodes c) u (Node (local (nodes c u)) (Joining (hd_error (keys c)))))
            (tasks c) (harmed c)) by (unfold c1; cbn [step]; now rewrite E).
  assert (C2 : exists k, remote c2 = remote c /\ rows c2 = rows c ++ [u] /\ tasks c2 = tasks c
            /\ harmed c2 = harmed c /\ (forall v, v <> u -> nodes c2 v = nodes c v)
            /\ nodes c2 u = Node (local (nodes c u)) (Joined k) /\ hd_error (keys c2) = Some k
            /\ forall k', hd_error (keys c) = Some k' -> k' = k).
  { unfold c2. rewrite C1. cbn [step nodes]. rewrite U. cbn [at_stage local].
    destruct (hd_error (keys c)) as [k|] eqn:K.
    - exists k. unfold with_node. cbn [remote rows tasks harmed nodes keys]. rewrite U.
      split; [reflexivity|]. split; [reflexivity|]. split; [reflexivity|]. split; [reflexivity|].
      split; [intros v D; now rewrite !V|]. split; [reflexivity|]. split; [exact K|congruence].
    - exists key. cbn [remote rows tasks harmed nodes keys]. rewrite U.
      split; [reflexivity|]. split; [reflexivity|]. split; [reflexivity|]. split; [reflexivity|].
      split; [intros v D; now rewrite !V|]. split; [reflexivity|]. destruct (keys c); [|discriminate].
      split; [reflexivity|discriminate]. }
  destruct C2 as (k & E1 & E2 & E3 & E4 & E5 & E6 & E7 & E8). clearbody c2. cbn [step].
  rewrite E6. cbn [at_stage local]. rewrite E1, S. unfold with_node.
  cbn [remote rows tasks harmed nodes keys].
  split; [exact E1|]. split; [exact E2|]. split; [exact E3|]. split; [exact E4|].
  split; [intros v D; rewrite V by exact D; now apply E5|].
  exists ts, ok, k. rewrite U. auto.
Qed.

Lemma harmed_step : forall c e, harmed c = true -> harmed (step storage_schema c e) = true.
Proof.
  intros c e H. destruct e as [u|u key|u|u|u|u r|i|i w|i]; cbn [step].
  - destruct (at_stage (nodes c u)); exact H.
  - destruct (at_stage (nodes c u)) as [|[k|]| |]; exact H.
  - destruct (at_stage (nodes c u)); try exact H. now destruct (synchronize _ _ _).
  - destruct (running c u); [|exact H]. cbn [harmed]. now rewrite H.
  - cbn [harmed]. now rewrite H.
  - destruct (running c u); [|exact H]. destruct (execute r (remote c)) as (ts, [|]); cbn [harmed];
      [exact H|now rewrite H].
  - destruct (nth_error (tasks c) i) as [[u r [|peers]]|]; exact H.
  - destruct (nth_error (tasks c) i) as [[u r [|peers]]|]; try exact H.
    destruct (existsb (Nat.eqb w) peers); [|exact H].
    destruct (at_stage (nodes c w)); try reflexivity. destruct (at_stage (nodes c u)); try reflexivity.
    destruct (_ =? _)%Z; [|reflexivity]. destruct (execute_peer r _) as (ts, [|]); [exact H|reflexivity].
  - destruct (nth_error (tasks c) i) as [[u r [|[|p peers]]]|]; try exact H.
    destruct (execute r _) as (ts, [|]); [exact H|reflexivity].
Qed.
Lemma harmed_run : forall events c, harmed c = true -> harmed (run storage_schema c events) = true.
Proof.
  induction events as [|e events IH]; intros c H; [exact H|]. cbn. apply IH. now apply harmed_step.
Qed.

Lemma present_zero : forall o o', present o = present o' -> (o = None <-> o' = None).
Proof. intros [d|] [d'|] H; cbn in H; split; congruence || discriminate. Qed.

Lemma balanced_step : forall c a, balanced c -> orderly c a ->
  harmed (run storage_schema c (events_of a)) = false ->
  balanced (run storage_schema c (events_of a)).
Proof.
  intros c a (N & NR & R & J & P & B) O H. destruct a as [u key|e].
  - (* A node is started. *)
    destruct O as (T & NI).
    assert (S : at_stage (nodes c u) = Stopped).
    { specialize (J u). specialize (R u). unfold running in R. destruct (at_stage (nodes c u)); tauto. }
    destruct (start_result c u key S) as (E1 & E2 & E3 & E4 & E5 & ts & ok & k & Y & E6 & _).
    set (c' := run storage_schema c (events_of (Start u key))) in *.
    split; [|split; [|split; [|split; [|split]]]].
    + rewrite E2. apply NoDup_rev in N. rewrite <- (rev_involutive (rows c)).
      change [u] with (rev [u]). rewrite <- rev_app_distr. apply NoDup_rev. cbn. constructor; [|exact N].
      now rewrite <- in_rev.
    + now rewrite E1.
    + intros v V. rewrite E2. apply in_app_iff. destruct (Nat.eq_dec v u) as [->|D]; [right; now left|].
      left. apply R. unfold running in *. now rewrite (E5 v D) in V.
    + intros v. destruct (Nat.eq_dec v u) as [->|D]; [|rewrite (E5 v D); apply J].
      rewrite E6. cbn [at_stage]. now destruct ok.
    + rewrite E3. exact P.
    + intros v V x. rewrite E1, E3. destruct (Nat.eq_dec v u) as [->|D].
      * rewrite T. cbn [total]. unfold running in V. rewrite E6 in *. cbn [local at_stage] in *.
        destruct ok; [|discriminate]. pose proof (synchronized _ _ _ NR Y x) as Z.
        destruct (find_table x (remote c)) as [[s|m]|].
        -- destruct Z as (d & -> & _). reflexivity.
        -- now rewrite Z.
        -- now rewrite Z.
      * rewrite (E5 v D). apply B. unfold running in *. now rewrite (E5 v D) in V.
  - unfold run in *. cbn [events_of fold_left] in *.
    destruct e as [u|u key|u|u|u|u r|i|i w|i]; cbn [orderly] in O; try contradiction.
    + (* Stop *)
      cbn [step] in *. destruct (running c u) eqn:RU; [|now repeat split].
      cbn [harmed] in H. apply orb_false_iff in H. destruct H as (H1 & H2).
      destruct (not_lost _ _ H2) as (L1 & L2). rewrite L1.
      split; [|split; [|split; [|split; [|split]]]]; cbn [rows remote nodes tasks].
      * now apply NoDup_filter.
      * exact NR.
      * intros v V. unfold running in V. cbn [nodes] in V. unfold update in V.
        destruct (v =? u) eqn:E; [discriminate|]. apply filter_In. split; [now apply R|]. now rewrite E.
      * intros v. unfold update. destruct (v =? u); [exact I|apply J].
      * exact P.
      * intros v V x. unfold running in V. cbn [nodes] in V. unfold update in *.
        destruct (v =? u) eqn:E; [discriminate|]. now apply B.
    + (* Crash *)
      cbn [step] in *. cbn [harmed] in H. apply orb_false_iff in H. destruct H as (H1 & H2).
      destruct (not_lost _ _ H2) as (L1 & L2). rewrite L1.
      split; [|split; [|split; [|split; [|split]]]]; cbn [rows remote nodes tasks].
      * exact N.
      * exact NR.
      * intros v V. unfold running in V. cbn [nodes] in V. unfold update in V.
        destruct (v =? u) eqn:E; [discriminate|]. now apply R.
      * intros v. unfold update. destruct (v =? u); [exact I|apply J].
      * exact P.
      * intros v V x. unfold running in V. cbn [nodes] in V. unfold update in *.
        destruct (v =? u) eqn:E; [discriminate|]. now apply B.
    + (* Begin *)
      cbn [step] in *. destruct (running c u) eqn:RU; [|now repeat split].
      destruct (execute r (remote c)) as (ts, [|]) eqn:E.
      * split; [|split; [|split; [|split; [|split]]]]; cbn [rows remote nodes tasks].
        -- exact N.
        -- now apply (execute_names r (remote c)).
        -- exact R.
        -- exact J.
        -- intros t I. apply in_app_iff in I. destruct I as [I|[<-|[]]]; [now apply P|]. cbn [asked].
           destruct r; [exact Logic.I|exact O].
        -- intros v V x. rewrite total_app. cbn [total]. unfold due at 2. cbn [reached asked].
           rewrite (execute_ok _ _ _ E x). specialize (B v V x). lia.
      * cbn [harmed] in H. apply orb_false_iff in H. destruct H as (H1 & H2).
        apply negb_false_iff, Nat.eqb_eq in H2. pose proof (execute_unchanged _ _ _ E H2) as ->.
        now repeat split.
    + (* Read *)
      cbn [step] in *. destruct (nth_error (tasks c) i) as [[u r [|peers]]|] eqn:T; [|now repeat split|now repeat split].
      split; [|split; [|split; [|split; [|split]]]]; cbn [rows remote nodes tasks]; auto.
      * intros t I. apply in_replace in I. destruct I as [->|I]; [|now apply P]. cbn [asked].
        apply nth_error_In in T. apply (P _ T).
      * intros v V x. rewrite (total_replace _ _ _ _ _ T). unfold due at 2 3. cbn [reached asked origin].
        rewrite (count_filter u v (rows c) N (R v V)). specialize (B v V x).
        destruct (Nat.eq_dec v u); lia.
    + (* Visit *)
      cbn [step] in *. destruct (nth_error (tasks c) i) as [[u r [|peers]]|] eqn:T; [now repeat split| |now repeat split].
      destruct (existsb (Nat.eqb w) peers) eqn:W; [|now repeat split].
      destruct (at_stage (nodes c w)) as [| | |k] eqn:SW; try discriminate.
      destruct (at_stage (nodes c u)) as [| | |k'] eqn:SU; try discriminate.
      destruct (k =? k')%Z; [|discriminate].
      assert (PR := P _ (nth_error_In _ _ T)). cbn [asked] in PR.
      rewrite (peer_same r _ PR) in *.
      destruct (execute r (local (nodes c w))) as (ts, [|]) eqn:E; [|discriminate].
      assert (WI : In w peers).
      { apply existsb_exists in W. destruct W as (v & I & EQ). apply Nat.eqb_eq in EQ. now subst v. }
      cbn [with_node rows remote nodes tasks keys harmed].
      split; [|split; [|split; [|split; [|split]]]]; cbn [rows remote nodes tasks]; auto.
      * intros v V. unfold running in V. cbn [nodes] in V. unfold update in V.
        destruct (Nat.eqb_spec v w) as [EQ|]; [rewrite EQ|]; apply R; unfold running; [now rewrite SW|exact V].
      * intros v. unfold update. destruct (v =? w); [exact I|apply J].
      * intros t I. apply in_replace in I. destruct I as [->|I]; [exact PR|now apply P].
      * intros v V x. rewrite (total_replace _ _ _ _ _ T). unfold due at 2 3. cbn [reached asked origin].
        rewrite (remove_one_count w peers v WI).
        assert (V' : running c v = true).
        { unfold running in *. cbn [nodes] in V. unfold update in V.
          destruct (Nat.eqb_spec v w) as [EQ|]; [rewrite EQ; now rewrite SW|exact V]. }
        specialize (B v V' x). clear V V'. unfold update. destruct (Nat.eqb_spec v w) as [->|D].
        -- cbn [local]. rewrite (execute_ok _ _ _ E x). destruct (Nat.eq_dec w w); [|congruence].
           destruct (Nat.eq_dec w u); lia.
        -- destruct (Nat.eq_dec v w); [congruence|]. destruct (Nat.eq_dec v u); lia.
    + (* Finish *)
      cbn [step] in *. destruct (nth_error (tasks c) i) as [[u r [|[|p peers]]]|] eqn:T; try now repeat split.
      destruct (execute r (local (nodes c u))) as (ts, [|]) eqn:E; [|discriminate].
      cbn [with_node rows remote nodes tasks keys harmed].
      split; [|split; [|split; [|split; [|split]]]]; cbn [rows remote nodes tasks]; auto.
      * intros v V. unfold running in V. cbn [nodes] in V. unfold update in V.
        destruct (Nat.eqb_spec v u) as [EQ|]; [rewrite EQ|]; apply R; exact V.
      * intros v. unfold update. destruct (Nat.eqb_spec v u) as [->|]; apply J.
      * intros t I. apply in_without in I. now apply P.
      * intros v V x. rewrite (total_without _ _ _ _ T). unfold due at 2. cbn [reached asked origin].
        assert (V' : running c v = true).
        { unfold running in *. cbn [nodes] in V. unfold update in V.
          destruct (Nat.eqb_spec v u) as [EQ|]; [rewrite EQ|]; exact V. }
        specialize (B v V' x). clear V V'. unfold update. destruct (Nat.eqb_spec v u) as [->|D].
        -- cbn [local count_occ]. rewrite (execute_ok _ _ _ E x). destruct (Nat.eq_dec u u); [|congruence]. lia.
        -- cbn [count_occ]. destruct (Nat.eq_dec v u); [congruence|]. lia.
Qed.

Lemma harmed_back : forall c events, harmed (run storage_schema c events) = false -> harmed c = false.
Proof.
  intros c events H. destruct (harmed c) eqn:E; [|reflexivity].
  now rewrite (harmed_run events c E) in H.
Qed.
Lemma outcome_harmed : forall actions c, harmed c = true -> harmed (outcome_of storage_schema c actions) = true.
Proof.
  induction actions as [|a actions IH]; intros c H; [exact H|]. cbn. apply IH. now apply harmed_run.
Qed.

Lemma balanced_all : forall actions c, balanced c -> always storage_schema orderly c actions ->
  harmed (outcome_of storage_schema c actions) = false -> balanced (outcome_of storage_schema c actions).
Proof.
  induction actions as [|a actions IH]; intros c B O H; [exact B|]. cbn in *. destruct O as (O1 & O2).
  apply IH; [|exact O2|exact H]. apply balanced_step; [exact B|exact O1|].
  destruct (harmed (run storage_schema c (events_of a))) eqn:E; [|reflexivity].
  pose proof (outcome_harmed actions _ E) as X. unfold outcome_of in X. congruence.
Qed.

Lemma balanced_new : forall ts local, NoDup (map fst ts) -> balanced (new_cluster ts local).
Proof.
  intros ts local N. split; [constructor|]. split; [exact N|]. split; [discriminate|].
  split; [intros u; exact I|]. split; [intros t []|]. discriminate.
Qed.

Lemma delta_zero : forall r x, ~ In x (names_of r) -> delta r x = 0%Z.
Proof.
  intros [y d|xs] x H; cbn [names_of delta] in *.
  - destruct (String.eqb_spec y x) as [->|]; [|reflexivity]. elim H. now left.
  - now destruct (in_dec string_dec x xs).
Qed.
Lemma balanced_names : forall c, balanced c -> same_names c.
Proof.
  intros c (_ & _ & _ & _ & _ & B) u U x S. apply present_zero. rewrite <- (B u U x).
  rewrite total_zero; [lia|]. intros t I. rewrite (delta_zero _ _ (S t I)). lia.
Qed.

Lemma names_agree : forall ts local actions, NoDup (map fst ts) ->
  always storage_schema orderly (new_cluster ts local) actions ->
  harmed (outcome_of storage_schema (new_cluster ts local) actions) = false ->
  same_names (outcome_of storage_schema (new_cluster ts local) actions).
Proof.
  intros ts local actions N O H. apply balanced_names, balanced_all; [|exact O|exact H].
  now apply balanced_new.
Qed.
End Invariant.
