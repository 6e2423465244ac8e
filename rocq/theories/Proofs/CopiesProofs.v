(** Proofs about moving and copying data between tables. *)
From Coq Require Import ZArith Reals String List Bool Lia Lra Sorting.Permutation.
From Verif Require Import Model.Base Model.Float Model.ErrorBound Model.Segments Model.Multivariate
  Model.Copies Spec.ErrorBoundSpec Spec.TimestampsSpec Spec.SegmentsSpec Spec.CopiesSpec.
Import ListNotations.
Open Scope Z_scope.

Lemma place_eqb_spec : forall p q, reflect (p = q) (place_eqb p q).
Proof.
  intros [a n] [b m]. unfold place_eqb. cbn [fst snd].
  destruct (Z.eqb_spec a b) as [->|H]; [|constructor; congruence].
  destruct (String.eqb_spec n m) as [->|H]; constructor; congruence.
Qed.

Lemma place_eqb_refl : forall p, place_eqb p p = true.
Proof. intros p. destruct (place_eqb_spec p p); congruence. Qed.

Lemma rows_set_same : forall w p f, w p <> None -> rows_at (set_rows p f w) p = f (rows_at w p).
Proof.
  intros w p f H. unfold rows_at, set_rows. rewrite place_eqb_refl. destruct (w p); [reflexivity|congruence].
Qed.

Lemma rows_set_other : forall w p q f, q <> p -> rows_at (set_rows p f w) q = rows_at w q.
Proof. intros w p q f H. unfold rows_at, set_rows. now destruct (place_eqb_spec q p). Qed.

Lemma set_exists : forall w p q f, set_rows p f w q <> None <-> w q <> None.
Proof.
  intros w p q f. unfold set_rows. destruct (place_eqb q p); [|tauto]. destruct (w q); split; congruence.
Qed.

Lemma run_snoc : forall source target w events e,
  run source target w (events ++ [e]) = step source target (run source target w events) e.
Proof. intros. unfold run. now rewrite fold_left_app. Qed.

Lemma written_snoc : forall p events e, written_by_others p (events ++ [e])
  = written_by_others p events
    ++ match e with Other_write q rows => if place_eqb p q then rows else [] | Move_step _ => [] end.
Proof.
  intros p events e. induction events as [|[x|q rows] events IH]; cbn [app written_by_others].
  - destruct e; [reflexivity|]. now rewrite app_nil_r.
  - exact IH.
  - now rewrite IH, app_assoc.
Qed.

Lemma exists_kept : forall source target w events q, w q <> None ->
  snd (run source target w events) q <> None.
Proof.
  intros source target w events q H. induction events as [|e events IH] using rev_ind; [exact H|].
  rewrite run_snoc. destruct (run source target w events) as [p w']. cbn [snd] in IH.
  destruct e as [e|r rows]; cbn [step fst snd].
  - destruct p as [|rows| |ok]; cbn [move_step].
    + destruct (can_move w' source target); [destruct e|]; exact IH.
    + destruct e; cbn [snd]; try exact IH; now apply set_exists.
    + destruct e; cbn [snd]; try exact IH; now apply set_exists.
    + exact IH.
  - now apply set_exists.
Qed.

Lemma other_tables : forall source target w events q, w q <> None -> q <> source -> q <> target ->
  rows_at (snd (run source target w events)) q = rows_at w q ++ written_by_others q events.
Proof.
  intros source target w events q Hq Hs Ht. induction events as [|e events IH] using rev_ind.
  { cbn [run fold_left snd written_by_others]. now rewrite app_nil_r. }
  pose proof (exists_kept source target w events q Hq) as He.
  rewrite run_snoc, written_snoc. destruct (run source target w events) as [p w']. cbn [snd] in *.
  destruct e as [e|r rows]; cbn [step fst snd].
  - rewrite app_nil_r, <- IH. destruct p as [|rows| |ok]; cbn [move_step].
    + destruct (can_move w' source target); [destruct e|]; reflexivity.
    + destruct e; cbn [snd]; try reflexivity; now apply rows_set_other.
    + destruct e; cbn [snd]; try reflexivity; now apply rows_set_other.
    + reflexivity.
  - destruct (place_eqb_spec q r) as [<-|Hn].
    + rewrite rows_set_same by exact He. now rewrite IH, app_assoc.
    + rewrite rows_set_other by exact Hn. now rewrite app_nil_r.
Qed.

Section Move.
Variables (source target : place) (w : world).
Hypothesis Hdiff : source <> target.
Hypothesis Hs : w source <> None.
Hypothesis Ht : w target <> None.

Definition moved_so_far (p : progress) (events : list event) (src tgt : list record) : Prop :=
  let s := rows_at w source in
  let t := rows_at w target in
  let more_s := written_by_others source events in
  let more_t := written_by_others target events in
  match p with
  | Not_started => all_in_source s t more_s more_t src tgt
  | Rows_read rows => all_in_source s t more_s more_t src tgt /\ rows = s ++ more_s
  | Rows_written => src = s ++ more_s /\ Permutation tgt (t ++ more_t ++ s ++ more_s)
  | Returned true => all_in_target s t more_s more_t src tgt
  | Returned false =>
      all_in_source s t more_s more_t src tgt \/ all_in_both s t more_s more_t src tgt
      \/ all_in_target s t more_s more_t src tgt
  end.

Lemma not_written_snoc : forall events e, source_not_written source target w (events ++ [e]) ->
  source_not_written source target w events.
Proof.
  intros events e H before rows after E. apply (H before rows (after ++ [e])). now rewrite E, <- app_assoc.
Qed.

Lemma perm_target : forall t more_t rest x : list record,
  Permutation ((t ++ more_t ++ rest) ++ x) (t ++ (more_t ++ x) ++ rest).
Proof.
  intros. rewrite <- !app_assoc. do 2 apply Permutation_app_head. apply Permutation_app_comm.
Qed.

Lemma move_invariant : forall events, source_not_written source target w events ->
  moved_so_far (fst (run source target w events)) events
    (rows_at (snd (run source target w events)) source) (rows_at (snd (run source target w events)) target).
Proof.
  induction events as [|e events IH] using rev_ind; intros Hn.
  { cbn [run fold_left fst snd moved_so_far written_by_others]. split; now rewrite app_nil_r. }
  specialize (IH (not_written_snoc _ _ Hn)).
  pose proof (exists_kept source target w events source Hs) as Hes.
  pose proof (exists_kept source target w events target Ht) as Het.
  assert (Hq : forall rows, e = Other_write source rows ->
    match fst (run source target w events) with Not_started | Returned _ => True | _ => False end).
  { intros rows ->. exact (Hn events rows [] eq_refl). }
  rewrite run_snoc. destruct (run source target w events) as [p w']. cbn [fst snd] in *.
  destruct e as [e|q rows].
  - cbn [step].
    assert (E1 : written_by_others source (events ++ [Move_step e]) = written_by_others source events)
      by (rewrite written_snoc; apply app_nil_r).
    assert (E2 : written_by_others target (events ++ [Move_step e]) = written_by_others target events)
      by (rewrite written_snoc; apply app_nil_r).
    unfold moved_so_far in *. rewrite E1, E2. clear E1 E2 Hn Hq.
    destruct p as [|rows| |ok]; cbn [move_step].
    + destruct (can_move w' source target).
      * destruct e; cbn [fst snd]; auto. destruct IH as [H1 H2]. split; [split|]; auto.
      * cbn [fst snd]. auto.
    + destruct IH as [[H1 H2] H3]. destruct e; cbn [fst snd].
      * rewrite rows_set_same by exact Het. rewrite rows_set_other by exact Hdiff.
        split; [exact H1|]. rewrite H2, H3, <- app_assoc. apply Permutation_refl.
      * left. split; auto.
      * rewrite rows_set_same by exact Het. rewrite rows_set_other by exact Hdiff.
        right. left. exists (written_by_others source events), []. rewrite app_nil_r.
        split; [reflexivity|]. split; [exact H1|]. rewrite H2, H3, <- app_assoc. apply Permutation_refl.
    + destruct IH as [H1 H2]. assert (Hd : target <> source) by congruence. destruct e; cbn [fst snd].
      * rewrite rows_set_same by exact Hes. rewrite rows_set_other by exact Hd.
        exists (written_by_others source events), []. rewrite app_nil_r. auto.
      * right. left. exists (written_by_others source events), []. rewrite app_nil_r. auto.
      * rewrite rows_set_same by exact Hes. rewrite rows_set_other by exact Hd.
        right. right. exists (written_by_others source events), []. rewrite app_nil_r. auto.
    + exact IH.
  - cbn [step fst snd].
    assert (Hd : target <> source) by congruence.
    unfold moved_so_far in *. rewrite !written_snoc.
    destruct (place_eqb_spec source q) as [<-|Hsq].
    + (* Rows are written to the source. *)
      specialize (Hq rows eq_refl).
      destruct (place_eqb_spec target source) as [E|_]; [congruence|]. rewrite app_nil_r.
      rewrite rows_set_same by exact Hes. rewrite rows_set_other by exact Hd.
      assert (Hsrc : forall a b, all_in_source (rows_at w source) (rows_at w target)
          (written_by_others source events) (written_by_others target events) a b ->
        all_in_source (rows_at w source) (rows_at w target)
          (written_by_others source events ++ rows) (written_by_others target events) (a ++ rows) b).
      { intros a b [H1 H2]. split; [|exact H2]. now rewrite H1, app_assoc. }
      assert (Htgt : forall a b, all_in_target (rows_at w source) (rows_at w target)
          (written_by_others source events) (written_by_others target events) a b ->
        all_in_target (rows_at w source) (rows_at w target)
          (written_by_others source events ++ rows) (written_by_others target events) (a ++ rows) b).
      { intros a b (early & late & H1 & H2 & H3). exists early, (late ++ rows).
        rewrite H1, <- app_assoc. split; [reflexivity|]. split; [now rewrite H2|exact H3]. }
      assert (Hboth : forall a b, all_in_both (rows_at w source) (rows_at w target)
          (written_by_others source events) (written_by_others target events) a b ->
        all_in_both (rows_at w source) (rows_at w target)
          (written_by_others source events ++ rows) (written_by_others target events) (a ++ rows) b).
      { intros a b (early & late & H1 & H2 & H3). exists early, (late ++ rows). rewrite H2.
        split; [now rewrite H1, <- app_assoc|]. split; [now rewrite <- app_assoc|exact H3]. }
      destruct p as [|r| |[|]]; try contradiction; auto.
      destruct IH as [IH|[IH|IH]]; auto.
    + rewrite app_nil_r. rewrite (rows_set_other w' q source) by exact Hsq.
      destruct (place_eqb_spec target q) as [<-|Htq].
      * rewrite rows_set_same by exact Het.
        assert (Hsrc : forall a b, all_in_source (rows_at w source) (rows_at w target)
          (written_by_others source events) (written_by_others target events) a b ->
        all_in_source (rows_at w source) (rows_at w target)
          (written_by_others source events) (written_by_others target events ++ rows) a (b ++ rows)).
        { intros a b [H1 H2]. split; [exact H1|]. now rewrite H2, app_assoc. }
        assert (Hperm : forall b rest, Permutation b (rows_at w target ++ written_by_others target events ++ rest) ->
          Permutation (b ++ rows) (rows_at w target ++ (written_by_others target events ++ rows) ++ rest)).
        { intros b rest H. eapply Permutation_trans; [apply Permutation_app_tail; exact H|]. apply perm_target. }
        assert (Htgt : forall a b, all_in_target (rows_at w source) (rows_at w target)
          (written_by_others source events) (written_by_others target events) a b ->
        all_in_target (rows_at w source) (rows_at w target)
          (written_by_others source events) (written_by_others target events ++ rows) a (b ++ rows)).
        { intros a b (early & late & H1 & H2 & H3). exists early, late. auto. }
        assert (Hboth : forall a b, all_in_both (rows_at w source) (rows_at w target)
          (written_by_others source events) (written_by_others target events) a b ->
        all_in_both (rows_at w source) (rows_at w target)
          (written_by_others source events) (written_by_others target events ++ rows) a (b ++ rows)).
        { intros a b (early & late & H1 & H2 & H3). exists early, late. auto. }
        destruct p as [|r| |[|]]; auto.
        -- destruct IH as [IH IH2]. split; auto.
        -- destruct IH as [IH IH2]. split; auto.
        -- destruct IH as [IH|[IH|IH]]; auto.
      * rewrite app_nil_r, (rows_set_other w' q target) by exact Htq. exact IH.
Qed.
End Move.

Lemma move_keeps : forall source target w events, source <> target -> w source <> None -> w target <> None ->
  source_not_written source target w events ->
  let (p, w') := run source target w events in
  let s := rows_at w source in
  let t := rows_at w target in
  let more_s := written_by_others source events in
  let more_t := written_by_others target events in
  (p = Returned true -> all_in_target s t more_s more_t (rows_at w' source) (rows_at w' target))
  /\ (all_in_source s t more_s more_t (rows_at w' source) (rows_at w' target)
      \/ all_in_both s t more_s more_t (rows_at w' source) (rows_at w' target)
      \/ all_in_target s t more_s more_t (rows_at w' source) (rows_at w' target)).
Proof.
  intros source target w events Hd Hs Ht Hn. pose proof (move_invariant source target w Hd Hs Ht events Hn) as H.
  destruct (run source target w events) as [p w']. cbn [fst snd] in H. cbv zeta.
  unfold moved_so_far in H. split.
  - intros ->. exact H.
  - destruct p as [|r| |[|]]; auto.
    + destruct H as [H _]. auto.
    + destruct H as [H1 H2]. right. left. exists (written_by_others source events), [].
      rewrite app_nil_r. auto.
Qed.

(** ** Moving a table to itself *)
Lemma set_kind : forall w p f q t, set_rows p f w q = Some t ->
  exists t', w q = Some t' /\ t_kind t = t_kind t' /\ t_schema t = t_schema t'.
Proof.
  intros w p f q t H. unfold set_rows in H. destruct (place_eqb q p); [|eauto].
  destruct (w q) as [t'|]; [|discriminate H]. exists t'. inversion H. auto.
Qed.

Lemma type_eqb_refl : forall a, type_eqb a a = true.
Proof. destruct a; cbn [type_eqb]; auto. apply Z.eqb_refl. Qed.

Lemma compatible_refl : forall schema, schemas_are_compatible schema schema = true.
Proof.
  induction schema as [|c schema IH]; cbn [schemas_are_compatible]; [reflexivity|].
  rewrite type_eqb_refl, IH. now destruct (c_nullable c).
Qed.

Lemma type_eqb_iff : forall a b, type_eqb a b = true <-> a = b.
Proof.
  intros a b. split; [|intros ->; apply type_eqb_refl].
  destruct a as [| | |n], b as [| | |m]; cbn [type_eqb]; intros H; try discriminate; try reflexivity.
  apply Z.eqb_eq in H. now subst.
Qed.

Lemma compatible_iff : forall a b, schemas_are_compatible a b = true
  <-> Forall2 (fun a b => c_type a = c_type b /\ (c_nullable a = true -> c_nullable b = true)) a b.
Proof.
  induction a as [|x a IH]; intros [|y b]; cbn [schemas_are_compatible]; split; intros H; try discriminate;
    try (now constructor); try (now inversion H).
  - apply andb_prop in H. destruct H as (H & H2). apply andb_prop in H. destruct H as (H0 & H1).
    constructor; [|now apply IH]. apply type_eqb_iff in H0. split; [exact H0|]. intros E. rewrite E in H1.
    now destruct (c_nullable y).
  - inversion H as [|? ? ? ? (H0 & H1) H2]; subst. apply IH in H2. rewrite H2, H0, type_eqb_refl.
    destruct (c_nullable x); [|reflexivity]. now rewrite (H1 eq_refl).
Qed.

Lemma can_move_iff : forall w source target s t, w source = Some s -> w target = Some t ->
  can_move w source target = true <-> fits s t.
Proof.
  intros w source target s t Hs Ht. unfold can_move, fits. rewrite Hs, Ht.
  destruct (t_kind s), (t_kind t); rewrite ?compatible_iff; intuition discriminate.
Qed.

Lemma move_fits : forall source target w s t, w source = Some s -> w target = Some t -> fits s t ->
  fst (run source target w [Move_step Succeeds; Move_step Succeeds; Move_step Succeeds]) = Returned true.
Proof.
  intros source target w s t Hs Ht F. apply (can_move_iff w source target s t Hs Ht) in F.
  unfold run. cbn [fold_left step move_step]. now rewrite F.
Qed.

Lemma move_not_fits : forall source target w s t, w source = Some s -> w target = Some t -> ~ fits s t ->
  forall events p, w p <> None -> fst (run source target w events) <> Returned true
    /\ rows_at (snd (run source target w events)) p = rows_at w p ++ written_by_others p events.
Proof.
  intros source target w s t Hs Ht N events p Hp.
  assert (I : (fst (run source target w events) = Not_started \/ fst (run source target w events) = Returned false)
    /\ (exists s' t', snd (run source target w events) source = Some s'
        /\ snd (run source target w events) target = Some t' /\ ~ fits s' t')
    /\ snd (run source target w events) p <> None
    /\ rows_at (snd (run source target w events)) p = rows_at w p ++ written_by_others p events).
  { induction events as [|e events IH] using rev_ind.
    - cbn [run fold_left fst snd written_by_others]. rewrite app_nil_r. split; [now left|].
      split; [now exists s, t|]. now split.
    - rewrite run_snoc, written_snoc. destruct (run source target w events) as [x w']. cbn [fst snd] in *.
      destruct IH as (X & (s' & t' & Hs' & Ht' & N') & Hp' & R). destruct e as [e|q rows]; cbn [step fst snd].
      + assert (M : move_step source target e (x, w') = (Returned false, w')).
        { destruct X as [-> | ->]; cbn [move_step]; [|reflexivity].
          destruct (can_move w' source target) eqn:C; [|reflexivity].
          apply (can_move_iff w' source target s' t' Hs' Ht') in C. contradiction. }
        rewrite M, app_nil_r. cbn [fst snd]. split; [now right|]. split; [now exists s', t'|]. now split.
      + split; [exact X|]. split.
        * assert (K : forall y u, w' y = Some u -> exists u', set_rows q (fun old => old ++ rows) w' y = Some u'
            /\ t_kind u' = t_kind u /\ t_schema u' = t_schema u).
          { intros y u Hy. unfold set_rows. rewrite Hy. destruct (place_eqb y q); [now eexists|now exists u]. }
          destruct (K source s' Hs') as (s2 & A & Ka & Sa), (K target t' Ht') as (t2 & B & Kb & Sb).
          exists s2, t2. split; [exact A|]. split; [exact B|]. unfold fits in *. now rewrite Ka, Kb, Sa, Sb.
        * split; [now apply set_exists|]. destruct (place_eqb_spec p q) as [<-|D].
          -- rewrite rows_set_same by exact Hp'. now rewrite R, <- app_assoc.
          -- rewrite rows_set_other by exact D. now rewrite R, app_nil_r. }
  destruct I as (X & _ & _ & R). split; [|exact R]. destruct X as [-> | ->]; discriminate.
Qed.

Lemma move_checks : forall source target w s t, w source = Some s -> w target = Some t ->
  (fits s t -> fst (run source target w [Move_step Succeeds; Move_step Succeeds; Move_step Succeeds])
               = Returned true)
  /\ (~ fits s t -> forall events p, w p <> None -> fst (run source target w events) <> Returned true
       /\ rows_at (snd (run source target w events)) p = rows_at w p ++ written_by_others p events).
Proof.
  intros source target w s t Hs Ht.
  exact (conj (move_fits source target w s t Hs Ht) (move_not_fits source target w s t Hs Ht)).
Qed.

Lemma copy_checks : forall source target a b tags w s t bs bt, w source = Some s -> w target = Some t ->
  t_kind s = Series_table bs -> t_kind t = Series_table bt ->
  (fits s t -> fst (copy_time_series_table source target a b tags Succeeds w) = true)
  /\ (~ fits s t -> forall e, copy_time_series_table source target a b tags e w = (false, w)).
Proof.
  intros source target a b tags w s t bs bt Hs Ht Ks Kt. unfold copy_time_series_table, fits.
  rewrite Hs, Ht, Ks, Kt, <- compatible_iff.
  destruct (schemas_are_compatible (t_schema s) (t_schema t)).
  - split; [reflexivity|]. intros N. now destruct N.
  - split; [|reflexivity]. intros (_ & N). discriminate.
Qed.

Lemma move_to_itself : forall p w, w p <> None ->
  let (progress, w') := run p p w [Move_step Succeeds; Move_step Succeeds; Move_step Succeeds] in
  progress = Returned true /\ rows_at w' p = [].
Proof.
  intros p w H. unfold run. cbn [fold_left step move_step].
  assert (E : can_move w p p = true).
  { unfold can_move. destruct (w p) as [t|]; [|congruence]. rewrite compatible_refl. now destruct (t_kind t). }
  rewrite E. cbn [move_step]. split; [reflexivity|].
  rewrite rows_set_same; [reflexivity|]. now apply set_exists.
Qed.

(** ** Bounds *)
Lemma looser_within : forall slack eb eb' a b, (0 <= slack)%R -> at_most_as_loose eb eb' ->
  within_bound slack eb a b -> within_bound slack eb' a b.
Proof.
  intros slack eb eb' a b Hs Hl [H|(H1 & H2 & H3)]; [now left|].
  destruct eb as [e|e|]; destruct eb' as [e'|e'|]; cbn [at_most_as_loose] in Hl; try contradiction.
  - right. split; [exact H1|]. split; [exact H2|]. eapply Rle_trans; [exact H3|].
    apply Rmult_le_compat_l; lra.
  - right. split; [exact H1|]. split; [exact H2|]. eapply Rle_trans; [exact H3|].
    apply Rmult_le_compat_r; [apply Rabs_pos|]. apply Rmult_le_compat_l; lra.
Qed.

Lemma target_rows : forall source target w events r,
  w source <> None -> w target <> None ->
  In r (rows_at (snd (run source target w events)) target) ->
  In r (rows_at w source) \/ In r (rows_at w target)
  \/ In r (written_by_others source events) \/ In r (written_by_others target events).
Proof.
  intros source target w events r Hs Ht.
  assert (H : forall r, (In r (rows_at (snd (run source target w events)) target)
      \/ In r (rows_at (snd (run source target w events)) source)
      \/ match fst (run source target w events) with Rows_read rows => In r rows | _ => False end) ->
    In r (rows_at w source) \/ In r (rows_at w target)
    \/ In r (written_by_others source events) \/ In r (written_by_others target events)).
  { clear r. induction events as [|e events IH] using rev_ind; intros r H.
    { cbn [run fold_left fst snd] in H. tauto. }
    pose proof (exists_kept source target w events source Hs) as Hes.
    pose proof (exists_kept source target w events target Ht) as Het.
    rewrite run_snoc in H. rewrite !written_snoc, !in_app_iff. specialize (IH r).
    destruct (run source target w events) as [p w']. cbn [fst snd] in *.
    assert (Hset : forall q f, In r (rows_at (set_rows q f w') target) \/ In r (rows_at (set_rows q f w') source) ->
      (q = target /\ In r (f (rows_at w' target))) \/ (q = source /\ In r (f (rows_at w' source)))
      \/ In r (rows_at w' target) \/ In r (rows_at w' source)).
    { intros q f [Hi|Hi].
      - destruct (place_eqb_spec target q) as [<-|E].
        + rewrite rows_set_same in Hi by exact Het. auto.
        + rewrite rows_set_other in Hi by exact E. auto.
      - destruct (place_eqb_spec source q) as [<-|E].
        + rewrite rows_set_same in Hi by exact Hes. auto.
        + rewrite rows_set_other in Hi by exact E. auto. }
    destruct e as [e|q rows]; cbn [step fst snd] in H.
    - enough (X : In r (rows_at w' target) \/ In r (rows_at w' source)
        \/ match p with Rows_read rows => In r rows | _ => False end) by tauto.
      destruct p as [|rows| |ok]; cbn [move_step] in H.
      + destruct (can_move w' source target); [destruct e|]; cbn [fst snd] in H; tauto.
      + destruct e; cbn [fst snd] in H; [| tauto |];
          (destruct (Hset target (fun old => old ++ rows)) as [[_ X]|[[<- X]|X]];
           [tauto|apply in_app_iff in X; tauto|apply in_app_iff in X; tauto|tauto]).
      + destruct e; cbn [fst snd] in H; [| tauto |];
          (destruct (Hset source (fun _ => [])) as [[_ []]|[[_ []]|X]]; tauto).
      + cbn [fst snd] in H. tauto.
    - destruct H as [H|[H|H]]; [| |tauto].
      + destruct (Hset q (fun old => old ++ rows)) as [[-> X]|[[-> X]|X]]; [tauto| | |tauto].
        * apply in_app_iff in X. rewrite place_eqb_refl. tauto.
        * apply in_app_iff in X. rewrite place_eqb_refl. tauto.
      + destruct (Hset q (fun old => old ++ rows)) as [[-> X]|[[-> X]|X]]; [tauto| | |tauto].
        * apply in_app_iff in X. rewrite place_eqb_refl. tauto.
        * apply in_app_iff in X. rewrite place_eqb_refl. tauto. }
  intros Hi. apply H. auto.
Qed.

Lemma move_bounds : forall P slack origin source target w events sb tb ss ts srows trows, (0 <= slack)%R ->
  w source = Some (Table_state (Series_table sb) ss srows) ->
  w target = Some (Table_state (Series_table tb) ts trows) ->
  Forall2 at_most_as_loose sb tb ->
  within_table_bounds P slack origin sb srows -> within_table_bounds P slack origin tb trows ->
  within_table_bounds P slack origin sb (written_by_others source events) ->
  within_table_bounds P slack origin tb (written_by_others target events) ->
  within_table_bounds P slack origin tb (rows_at (snd (run source target w events)) target).
Proof.
  intros P slack origin source target w events sb tb ss ts srows trows Hk Es Et Hl H1 H2 H3 H4 tags field s Hi.
  apply target_rows in Hi; [|congruence|congruence].
  assert (Hw : forall rows, within_table_bounds P slack origin sb rows -> within_table_bounds P slack origin tb rows).
  { intros rows H tags' field' s' Hi'. destruct (H tags' field' s' Hi') as (eb & out & E1 & E2 & E3).
    assert (Hn : exists eb', nth_error tb field' = Some eb' /\ at_most_as_loose eb eb').
    { clear - Hl E1. revert field' E1. induction Hl as [|a b sb tb Hab _ IH]; intros [|f] E1; try discriminate E1.
      - cbn [nth_error] in *. exists b. split; [reflexivity|]. congruence.
      - cbn [nth_error] in *. auto. }
    destruct Hn as (eb' & En & Hloose). exists eb', out. split; [exact En|]. split; [exact E2|].
    clear - E3 Hloose Hk. induction E3; constructor; eauto using looser_within. }
  unfold rows_at in Hi at 1 2. rewrite Es, Et in Hi. cbn [t_rows] in Hi.
  destruct Hi as [Hi|[Hi|[Hi|Hi]]].
  - exact (Hw _ H1 _ _ _ Hi).
  - exact (H2 _ _ _ Hi).
  - exact (Hw _ H3 _ _ _ Hi).
  - exact (H4 _ _ _ Hi).
Qed.

(** ** Copies *)
Lemma copy_result : forall source target a b tags e w,
  let (ok, w') := copy_time_series_table source target a b tags e w in
  (ok = false /\ (forall q, rows_at w' q = rows_at w q)
   \/ (forall q, q <> target -> rows_at w' q = rows_at w q)
      /\ rows_at w' target = rows_at w target
           ++ filter (in_interval a b) (rows_at w source)).
Proof.
  intros source target a b tags e w. unfold copy_time_series_table.
  destruct (w source) as [s|] eqn:Es; [|auto]. destruct (w target) as [t|] eqn:Et; [|auto].
  assert (Hw : (forall q, q <> target -> rows_at (set_rows target (fun old => old ++ filter (in_interval a b) (t_rows s)) w) q = rows_at w q)
    /\ rows_at (set_rows target (fun old => old ++ filter (in_interval a b) (t_rows s)) w) target
       = rows_at w target ++ filter (in_interval a b) (rows_at w source)).
  { split; [intros q Hq; now apply rows_set_other|]. rewrite rows_set_same by congruence.
    f_equal. unfold rows_at. now rewrite Es. }
  destruct (t_kind s), (t_kind t); auto. destruct (schemas_are_compatible _ _); auto.
  destruct e; auto.
Qed.

Lemma first_le_all : forall ts t, valid_timestamps ts -> In t ts -> first_timestamp ts <= t <= last_timestamp ts.
Proof.
  intros ts t (Hn & _ & Hs & _) Hi. unfold strictly_increasing in Hs.
  destruct ts as [|x ts]; [congruence|]. unfold first_timestamp, last_timestamp. cbn [hd].
  inversion Hs as [|? ? Hss Hf]; subst. split.
  - destruct Hi as [<-|Hi]; [lia|]. rewrite Forall_forall in Hf. specialize (Hf t Hi). lia.
  - clear Hn. revert x t Hi Hs Hss Hf. induction ts as [|y ts IH]; intros x t Hi Hs Hss Hf.
    + destruct Hi as [<-|[]]. cbn [last]. lia.
    + inversion Hss as [|? ? Hss' Hf']; subst. change (last (x :: y :: ts) 0) with (last (y :: ts) 0).
      destruct Hi as [<-|Hi].
      * specialize (IH y y (or_introl eq_refl) Hss Hss' Hf').
        inversion Hf; subst. lia.
      * exact (IH y t Hi Hss Hss' Hf').
Qed.

Lemma copied_points : forall a b tags field s points,
  in_interval a b (Segment_row tags field s) = true -> covers s points ->
  valid_timestamps (map fst points) ->
  Forall (fun p => (forall t, a = Some t -> t <= fst p) /\ (forall t, b = Some t -> fst p <= t)) points.
Proof.
  intros a b tags field s points Hi (_ & Es & Ee & _) Hv. cbn [in_interval] in Hi.
  apply andb_true_iff in Hi. destruct Hi as [H1 H2].
  apply Forall_forall. intros p Hp. pose proof (first_le_all _ _ Hv (in_map fst _ _ Hp)) as Hr.
  split; intros t ->.
  - apply Z.leb_le in H1. lia.
  - apply Z.leb_le in H2. lia.
Qed.
