(** Proofs about calling ModelarDB from C and Python. *)
From Coq Require Import Bool Ascii String List Arith Lia.
From Verif Require Import Model.Handles Spec.HandlesSpec.
Import ListNotations.
Open Scope nat_scope.
Open Scope list_scope.

Ltac inv H := inversion H; subst; clear H.

Lemma run_app : forall a s b,
  run s (a ++ b) = match run s a with
                   | Undefined f => Undefined f
                   | Returned (s1, h1) =>
                       match run s1 b with
                       | Undefined f => Undefined f
                       | Returned (s2, h2) => Returned (s2, h1 ++ h2)
                       end
                   end.
Proof.
  induction a as [|[t c] a IH]; intros s b; cbn [run app].
  - destruct (run s b) as [[s2 h2]|f]; reflexivity.
  - destruct (step s t c) as [[s1 r]|f]; [|reflexivity].
    rewrite IH. destruct (run s1 a) as [[s2 h2]|f]; [|reflexivity].
    destruct (run s2 b) as [[s3 h3]|f]; reflexivity.
Qed.

Lemma run_events : forall es s s' h, run s es = Returned (s', h) -> map fst h = es.
Proof.
  induction es as [|[t c] es IH]; intros s s' h H; cbn [run] in H.
  - inv H. reflexivity.
  - destruct (step s t c) as [[s1 r]|f]; [|discriminate].
    destruct (run s1 es) as [[s2 h2]|f] eqn:E; [|discriminate]. inv H.
    cbn. f_equal. eauto.
Qed.

(** An execution can be cut wherever its history can. *)
Lemma run_split : forall h1 es s s' e r h2,
  run s es = Returned (s', h1 ++ (e, r) :: h2) ->
  exists es1 es2 s1 s2,
    es = es1 ++ e :: es2 /\ run s es1 = Returned (s1, h1) /\
    step s1 (fst e) (snd e) = Returned (s2, r) /\ run s2 es2 = Returned (s', h2).
Proof.
  induction h1 as [|[e1 r1] h1 IH]; intros es s s' e r h2 H; destruct es as [|[t c] es];
    cbn [run app] in H; try discriminate;
    destruct (step s t c) as [[s1 r']|f] eqn:E; try discriminate;
    destruct (run s1 es) as [[s2 h']|f] eqn:E2; try discriminate; inv H.
  - exists [], es, s, s1. cbn. rewrite E. auto.
  - destruct (IH _ _ _ _ _ _ E2) as (es1 & es2 & s3 & s4 & -> & R1 & S & R2).
    exists ((t, c) :: es1), es2, s3, s4. cbn [app run]. rewrite E, R1. auto.
Qed.

(** Conversions. *)

Lemma text_fine : forall s x, c_char_ptr_to_str s = Fine x -> text_problem s = None.
Proof.
  intros [bytes|] x; cbn; [|discriminate].
  destruct (from_ptr bytes) as [b|]; [|discriminate]. destruct (is_utf8 b); congruence.
Qed.
Lemma text_failed : forall s m, c_char_ptr_to_str s = Failed m -> text_problem s = Some m.
Proof.
  intros [bytes|] x; cbn; [|unfold null_string; congruence].
  destruct (from_ptr bytes) as [b|]; [|discriminate].
  destruct (is_utf8 b); unfold not_utf8; congruence.
Qed.

Lemma handle_fine : forall b w p f x,
  c_void_to_operations b w p f = Fine x ->
  x = p /\ usable p = true /\ find_box p b = Some (kind_of f) /\ ~ In p w.
Proof.
  intros b w p f x; unfold c_void_to_operations.
  destruct (usable p); [|discriminate]. destruct (find_box p b) as [k|]; [|discriminate].
  destruct (kind_eqb k (kind_of f)) eqn:K; cbn [negb]; [|discriminate].
  destruct (existsb (Nat.eqb p) w) eqn:X; [discriminate|]. intros H; inv H.
  repeat split; auto.
  - destruct k, (kind_of f); cbn in K; congruence.
  - intros I. assert (existsb (Nat.eqb x) w = true); [|congruence].
    apply existsb_exists. exists x. split; [assumption|apply Nat.eqb_refl].
Qed.
Lemma handle_failed : forall b w p f m,
  c_void_to_operations b w p f = Failed m -> problem_of (Handle p f) = Some m /\ usable p = false.
Proof.
  intros b w p f x; unfold c_void_to_operations. cbn [problem_of].
  destruct (usable p); [|unfold null_handle; destruct f; intros H; inv H; auto].
  destruct (find_box p b) as [k|]; [|discriminate].
  destruct (kind_eqb k (kind_of f)); cbn [negb]; [|discriminate].
  destruct (existsb (Nat.eqb p) w); discriminate.
Qed.

Lemma problem_handle_fine : forall p f, usable p = true -> problem_of (Handle p f) = None.
Proof. intros p [|] U; cbn; rewrite U; reflexivity. Qed.

Lemma optional_fine : forall s x,
  c_char_ptr_to_maybe_str s = Fine x -> problem_of (Optional s) = None.
Proof.
  intros [bytes|] x; cbn [problem_of c_char_ptr_to_maybe_str]; [|reflexivity].
  destruct (c_char_ptr_to_str (Some bytes)) eqn:E; try discriminate.
  intros _. eapply text_fine; eassumption.
Qed.
Lemma optional_failed : forall s m,
  c_char_ptr_to_maybe_str s = Failed m -> problem_of (Optional s) = Some m.
Proof.
  intros [bytes|] m; cbn [problem_of c_char_ptr_to_maybe_str]; [|discriminate].
  destruct (c_char_ptr_to_str (Some bytes)) eqn:E; try discriminate.
  intros H; inv H. eapply text_failed; eassumption.
Qed.

(** What the conversions return is the first problem of the arguments. *)
Lemma convert_problem : forall b args w w',
  (convert b args w = (Fine tt, w') -> first_problem (map problem_of args) = None) /\
  (forall m, convert b args w = (Failed m, w') -> first_problem (map problem_of args) = Some m).
Proof.
  induction args as [|a args IH]; intros w w'.
  - cbn. split; [reflexivity|]. intros m H; inv H.
  - destruct a as [p f|s|s|a problem|a problem]; cbn [convert map first_problem].
    + destruct (c_void_to_operations b (held w) p f) as [x|m|g] eqn:E.
      * destruct (handle_fine _ _ _ _ _ E) as (_ & U & _ & _).
        rewrite (problem_handle_fine p f U). apply IH.
      * destruct (handle_failed _ _ _ _ _ E) as [P _]. rewrite P.
        split; [discriminate|]. intros m' H; inv H. reflexivity.
      * split; [discriminate|]. intros m' H; inv H.
    + destruct (c_char_ptr_to_str s) as [x|m|g] eqn:E.
      * cbn [problem_of]. rewrite (text_fine _ _ E). apply IH.
      * cbn [problem_of]. rewrite (text_failed _ _ E).
        split; [discriminate|]. intros m' H; inv H. reflexivity.
      * split; [discriminate|]. intros m' H; inv H.
    + destruct (c_char_ptr_to_maybe_str s) as [x|m|g] eqn:E.
      * rewrite (optional_fine _ _ E). apply IH.
      * rewrite (optional_failed _ _ E).
        split; [discriminate|]. intros m' H; inv H. reflexivity.
      * split; [discriminate|]. intros m' H; inv H.
    + cbn [problem_of]. destruct problem as [m|]; [|apply IH].
      split; [discriminate|]. intros m' H; inv H. reflexivity.
    + cbn [problem_of]. destruct problem as [m|]; [|apply IH].
      split; [discriminate|]. intros m' H; inv H. reflexivity.
Qed.
Lemma convert_fine : forall b args w w',
  convert b args w = (Fine tt, w') -> first_problem (map problem_of args) = None.
Proof. intros. eapply convert_problem; eassumption. Qed.
Lemma convert_failed : forall b args w w' m,
  convert b args w = (Failed m, w') -> first_problem (map problem_of args) = Some m.
Proof. intros b args w w' m H. destruct (convert_problem b args w w') as [_ K]. eauto. Qed.

Lemma first_problem_app : forall a b,
  first_problem (a ++ b) = match first_problem a with Some m => Some m | None => first_problem b end.
Proof.
  induction a as [|[m|] a IH]; intros b; cbn; auto.
Qed.

(** The handles that are passed on to an operation. *)
Lemma convert_held : forall b args w w',
  convert b args w = (Fine tt, w') ->
  held w' = held w ++ map fst (handles args) /\
  (forall p k, In (p, k) (handles args) -> usable p = true /\ find_box p b = Some k) /\
  (NoDup (held w) -> NoDup (held w ++ map fst (handles args))).
Proof.
  induction args as [|a args IH]; intros w w' H.
  - cbn in *. inv H. rewrite app_nil_r. split; [auto|]. split; [intros ? ? []|auto].
  - destruct a as [p f|s|s|a problem|a problem]; cbn [convert handles] in *.
    + destruct (c_void_to_operations b (held w) p f) as [x|m|g] eqn:E; try discriminate.
      destruct (handle_fine _ _ _ _ _ E) as (-> & U & F & N).
      destruct (IH _ _ H) as (A & B & C). cbn [held] in *. rewrite A, <- app_assoc. cbn.
      split; [reflexivity|]. split.
      * intros p' k' [I|I]; [inv I; auto|eauto].
      * intros D. rewrite <- app_assoc in C. apply C.
        apply NoDup_rev in D. rewrite <- (rev_involutive (held w ++ [p])). apply NoDup_rev.
        rewrite rev_app_distr. cbn. constructor; [|assumption].
        rewrite <- in_rev. assumption.
    + destruct (c_char_ptr_to_str s) as [x|m|g]; try discriminate. apply (IH _ _ H).
    + destruct (c_char_ptr_to_maybe_str s) as [x|m|g]; try discriminate. apply (IH _ _ H).
    + destruct problem; [discriminate|]. apply (IH _ _ H).
    + destruct problem; [discriminate|]. apply (IH _ _ H).
Qed.

(** No fault, if the program obeys. *)
Lemma from_ptr_app : forall a b, exists x, from_ptr (a ++ String zero b) = Some x.
Proof.
  induction a as [|c a IH]; intros b; cbn [append from_ptr].
  - exists ""%string. reflexivity.
  - destruct (Ascii.eqb c zero); [eauto|]. destruct (IH b) as [x ->]. cbn. eauto.
Qed.
Lemma terminated_fine : forall s f, terminated s -> c_char_ptr_to_str s <> Faulty f.
Proof.
  intros [bytes|] f T; cbn; [|discriminate].
  destruct (T _ eq_refl) as (a & b & ->). destruct (from_ptr_app a b) as [x ->].
  destruct (is_utf8 x); discriminate.
Qed.

Lemma kind_eqb_refl : forall k, kind_eqb k k = true.
Proof. destruct k; reflexivity. Qed.

Lemma convert_defined : forall b args w f,
  (forall p k, In (p, k) (handles args) -> p = 0 \/ find_box p b = Some k) ->
  (forall p k l k' r, handles args = l ++ (p, k) :: r -> In (p, k') r -> p = 0) ->
  (forall p k, In (p, k) (handles args) -> In p (held w) -> p = 0) ->
  (forall s, In (Required s) args \/ In (Optional s) args -> terminated s) ->
  fst (convert b args w) <> Faulty f.
Proof.
  induction args as [|a args IH]; intros w f H1 H2 H3 H4; [discriminate|].
  destruct a as [p g|s|s|a problem|a problem]; cbn [convert handles] in *.
  - destruct (c_void_to_operations b (held w) p g) as [x|m|z] eqn:E.
    + destruct (handle_fine _ _ _ _ _ E) as (-> & U & F & N).
      apply IH.
      * intros p' k' I. apply H1. right. assumption.
      * intros p' k' l k2 r Q I. apply (H2 p' k' ((p, kind_of g) :: l) k2 r); [|assumption].
        rewrite Q. reflexivity.
      * cbn [held]. intros p' k' I J. rewrite in_app_iff in J. destruct J as [J|[<-|[]]].
        -- apply (H3 p' k'); [right; assumption|assumption].
        -- apply (H2 p (kind_of g) [] k' (handles args)); [reflexivity|assumption].
      * intros s I. apply H4. destruct I as [I|I]; [left|right]; right; assumption.
    + discriminate.
    + exfalso. unfold c_void_to_operations in E. destruct (usable p) eqn:U; [|discriminate].
      assert (p <> 0) as Z.
      { intros ->. discriminate. }
      destruct (H1 p (kind_of g) (or_introl eq_refl)) as [|F]; [contradiction|].
      rewrite F, kind_eqb_refl in E. cbn in E.
      destruct (existsb (Nat.eqb p) (held w)) eqn:X; [|discriminate].
      apply existsb_exists in X. destruct X as (q & I & Q). apply Nat.eqb_eq in Q. subst q.
      apply Z. apply (H3 p (kind_of g)); [left; reflexivity|assumption].
  - destruct (c_char_ptr_to_str s) as [x|m|z] eqn:E; [apply IH|discriminate|]; cbn [held]; auto.
    + intros s' I. apply H4. destruct I as [I|I]; [left|right]; right; assumption.
    + exfalso. apply (terminated_fine s z); [|assumption]. apply H4. left. left. reflexivity.
  - destruct (c_char_ptr_to_maybe_str s) as [x|m|z] eqn:E; [apply IH|discriminate|]; cbn [held]; auto.
    + intros s' I. apply H4. destruct I as [I|I]; [left|right]; right; assumption.
    + exfalso. destruct s as [bytes|]; cbn [c_char_ptr_to_maybe_str] in E; [|discriminate].
      destruct (c_char_ptr_to_str (Some bytes)) eqn:E2; try discriminate. inv E.
      apply (terminated_fine (Some bytes) z); [|assumption]. apply H4. right. left. reflexivity.
  - destruct problem; [discriminate|]. apply IH; auto.
    intros s' I. apply H4. destruct I as [I|I]; [left|right]; right; assumption.
  - destruct problem; [discriminate|]. apply IH; auto.
    intros s' I. apply H4. destruct I as [I|I]; [left|right]; right; assumption.
Qed.

(** The three kinds of calls. *)
Definition opened_by (c : call) : option (kind * opened) :=
  match c with
  | OpenMemory r | OpenLocal _ r | OpenS3 _ _ _ _ r | OpenAzure _ _ _ r => Some (Folder, r)
  | Connect _ r => Some (Client, r)
  | _ => None
  end.
Definition is_use (c : call) : Prop :=
  match c with
  | OpenMemory _ | OpenLocal _ _ | OpenS3 _ _ _ _ _ | OpenAzure _ _ _ _ | Connect _ _
  | Close _ _ | LastError => False
  | _ => True
  end.
Lemma step_cases : forall c,
  (exists k r, opened_by c = Some (k, r) /\ (forall s t, step s t c = open_step s t c k r) /\
     opens c k /\ (forall k', opens c k' -> k' = k) /\
     operation_problem c = match r with Allocated _ => None | Refused m => Some m end /\
     handles_of c = handles (arguments c) /\ ~ is_close c) \/
  (exists p f, c = Close p f) \/ c = LastError \/
  ((forall s t, step s t c = use_step s t c (operation_problem c)) /\
   (forall k, ~ opens c k) /\ handles_of c = handles (arguments c) /\ ~ is_close c).
Proof.
  intros c; destruct c;
    try (left; eexists _, _; split; [reflexivity|]; split; [reflexivity|];
         cbn; repeat split; auto; intros (? & ? & ?); discriminate);
    try (right; left; eauto; fail); try (right; right; left; reflexivity);
    (right; right; right; split; [reflexivity|]; split; [cbn; auto|];
     split; [reflexivity|intros (? & ? & ?); discriminate]).
Qed.

(** The boxes. *)
Lemma step_boxes : forall s t c s' r,
  step s t c = Returned (s', r) ->
  (exists p k, opens c k /\ (forall k', opens c k' -> k' = k) /\ r = Pointer p /\
     error_of c = None /\ boxes s' = (p, k) :: boxes s) \/
  (exists p f, c = Close p f /\ usable p = true /\ boxes s' = remove_box p (boxes s) /\
     find_box p (boxes s) = Some (kind_of f) /\ r = Code 0) \/
  (boxes s' = boxes s /\ (forall p, r = Pointer p -> p = 0 /\ error_of c <> None) /\
   forall p f, c = Close p f -> usable p = false).
Proof.
  intros s t c s' r H.
  destruct (step_cases c) as [(k & o & O & S & P1 & P2 & P3 & _ & NC)|[(p & f & ->)|[->|(S & P & _ & NC)]]].
  - rewrite S in H. unfold open_step in H.
    destruct (convert (boxes s) (arguments c) nothing) as [[[]|m|f] w] eqn:E; try discriminate.
    + destruct o as [p|m]; inv H.
      * left. exists p, k. repeat split; auto. unfold error_of.
        rewrite first_problem_app, (convert_fine _ _ _ _ E), P3. reflexivity.
      * right. right. split; [reflexivity|]. split.
        -- intros p Q. inv Q. split; [reflexivity|]. unfold error_of.
           rewrite first_problem_app, (convert_fine _ _ _ _ E), P3. discriminate.
        -- intros p f ->. exfalso. apply NC. eexists _, _. reflexivity.
    + inv H. right. right. split; [reflexivity|]. split.
      * intros p Q. inv Q. split; [reflexivity|]. unfold error_of.
        rewrite first_problem_app, (convert_failed _ _ _ _ _ E). discriminate.
      * intros p f ->. exfalso. apply NC. eexists _, _. reflexivity.
  - cbn [step] in H. unfold close_step in H. destruct (usable p) eqn:U.
    + destruct (find_box p (boxes s)) as [k|] eqn:F; [|discriminate].
      destruct (kind_eqb k (kind_of f)) eqn:K; [|discriminate]. inv H.
      right. left. exists p, f. repeat split; auto.
      destruct k, (kind_of f); cbn in K; congruence.
    + inv H. right. right. split; [reflexivity|]. split.
      * intros q Q. inv Q.
      * intros q g Q. inv Q. assumption.
  - right. right. cbn [step] in H. unfold error_step in H.
    destruct (last_error s t); inv H; (split; [reflexivity|]); split;
      intros; discriminate.
  - rewrite S in H. unfold use_step in H.
    destruct (convert (boxes s) (arguments c) nothing) as [[[]|m|f] w] eqn:E; try discriminate.
    + destruct (operation_problem c); inv H; right; right; (split; [reflexivity|]);
        (split; [intros ? Q; inv Q|]); intros p f ->; exfalso; apply NC; eexists _, _; reflexivity.
    + inv H. right; right; (split; [reflexivity|]);
        (split; [intros ? Q; inv Q|]); intros p f ->; exfalso; apply NC; eexists _, _; reflexivity.
Qed.

Lemma open_in_snoc : forall h t c r p k,
  open_in (h ++ [((t, c), r)]) p k <->
  (p <> 0 /\ r = Pointer p /\ opens c k) \/
  (open_in h p k /\ forall f, c <> Close p f).
Proof.
  intros h t c r p k. split.
  - intros (Z & b & u & d & a & E & O & N).
    destruct a as [|x a _] using rev_ind.
    + apply app_inj_tail in E. destruct E as [-> E]. inv E. left. auto.
    + right. rewrite app_comm_cons, app_assoc in E. apply app_inj_tail in E.
      destruct E as [-> <-]. split.
      * split; [assumption|]. exists b, u, d, a. split; [reflexivity|]. split; [assumption|].
        intros u' f r' I. apply (N u' f r'). apply in_or_app. left. assumption.
      * intros f ->. apply (N t f r). apply in_or_app. right. left. reflexivity.
  - intros [(Z & -> & O)|((Z & b & u & d & a & -> & O & N) & C)].
    + split; [assumption|]. exists h, t, c, []. repeat split; auto.
    + split; [assumption|]. exists b, u, d, (a ++ [((t, c), r)]).
      split; [rewrite <- app_assoc; reflexivity|]. split; [assumption|].
      intros u' f r' I. apply in_app_or in I. destruct I as [I|[I|[]]].
      * exact (N _ _ _ I).
      * inv I. apply (C f). reflexivity.
Qed.

Definition agrees (s : state) (h : history) : Prop :=
  NoDup (map fst (boxes s)) /\ (forall p k, In (p, k) (boxes s) <-> open_in h p k) /\
  (forall p k, In (p, k) (boxes s) -> usable p = true).

Lemma find_box_in : forall b p k, find_box p b = Some k -> In (p, k) b.
Proof.
  induction b as [|[q k'] b IH]; intros p k; cbn; [discriminate|].
  destruct (q =? p) eqn:E; [|eauto]. apply Nat.eqb_eq in E. intros H; inv H. auto.
Qed.
Lemma in_find_box : forall b p k, NoDup (map fst b) -> In (p, k) b -> find_box p b = Some k.
Proof.
  induction b as [|[q k'] b IH]; intros p k N I; [destruct I|]. cbn. inv N.
  destruct I as [I|I].
  - inv I. rewrite Nat.eqb_refl. reflexivity.
  - destruct (q =? p) eqn:E; [|auto]. apply Nat.eqb_eq in E. subst q. exfalso. apply H1.
    apply (in_map fst) in I. exact I.
Qed.
Lemma remove_box_in : forall b p q k, NoDup (map fst b) ->
  (In (q, k) (remove_box p b) <-> In (q, k) b /\ q <> p).
Proof.
  induction b as [|[x k'] b IH]; intros p q k N; cbn.
  - tauto.
  - inv N. destruct (x =? p) eqn:E.
    + apply Nat.eqb_eq in E. subst x. split.
      * intros I. split; [auto|]. intros ->. apply H1. apply (in_map fst) in I. exact I.
      * intros [[I|I] Q]; [inv I; contradiction|assumption].
    + apply Nat.eqb_neq in E. cbn. rewrite (IH p q k H2). split.
      * intros [I|[I Q]]; [inv I; auto|auto].
      * intros [[I|I] Q]; auto.
Qed.
Lemma remove_box_nodup : forall b p, NoDup (map fst b) -> NoDup (map fst (remove_box p b)).
Proof.
  induction b as [|[x k'] b IH]; intros p N; cbn; [assumption|]. inv N.
  destruct (x =? p); [assumption|]. cbn. constructor; [|auto].
  intros I. apply H1. apply in_map_iff in I. destruct I as ([y k] & Q & I). cbn in Q. subst y.
  apply (remove_box_in b p) in I; [|assumption]. destruct I as [I _].
  apply (in_map fst) in I. exact I.
Qed.

Lemma allocates_prefix : forall h1 h2, allocates (h1 ++ h2) -> allocates h1.
Proof.
  intros h1 h2 A b t c p a -> E. apply (A b t c p (a ++ h2)); [|assumption].
  rewrite <- app_assoc. reflexivity.
Qed.

Lemma usable_iff : forall p, usable p = true <-> p <> 0 /\ p mod 8 = 0.
Proof.
  intros p. unfold usable. rewrite andb_true_iff, negb_true_iff, Nat.eqb_eq, Nat.eqb_neq. tauto.
Qed.

Lemma agrees_step : forall s h t c s' r,
  agrees s h -> allocates (h ++ [((t, c), r)]) -> step s t c = Returned (s', r) ->
  agrees s' (h ++ [((t, c), r)]).
Proof.
  intros s h t c s' r (N & I & U) A H.
  destruct (step_boxes _ _ _ _ _ H) as
    [(p & k & O & O' & -> & E & B)|[(p & f & -> & Up & B & F & ->)|(B & R & C)]].
  - destruct (A h t c p [] eq_refl E) as (Z & M & D).
    unfold agrees. rewrite B. cbn [map fst]. split.
    + constructor; [|assumption]. intros J. apply in_map_iff in J.
      destruct J as ([q k'] & Q & J). cbn in Q. subst q. apply (D k'). apply I. assumption.
    + split.
      * intros q k'. rewrite open_in_snoc. cbn [In]. rewrite I. split.
        -- intros [J|J].
           ++ inv J. left. auto.
           ++ right. split; [assumption|]. intros f ->. destruct O.
        -- intros [(_ & J & O2)|[J _]]; [left; inv J; rewrite (O' _ O2); reflexivity|auto].
      * intros q k' [J|J]; [|eauto]. inv J. apply usable_iff. auto.
  - unfold agrees. rewrite B. split; [apply remove_box_nodup; assumption|]. split.
    + intros q k'. rewrite (remove_box_in _ _ _ _ N), open_in_snoc, I. split.
      * intros [J Q]. right. split; [assumption|]. intros g E. inv E. contradiction.
      * intros [(_ & J & _)|[J Q]]; [discriminate|]. split; [assumption|].
        intros ->. apply (Q f). reflexivity.
    + intros q k' J. apply (remove_box_in _ _ _ _ N) in J. destruct J. eauto.
  - unfold agrees. rewrite B. split; [assumption|]. split; [|assumption].
    intros q k'. rewrite open_in_snoc, I. split.
    + intros J. right. split; [assumption|]. intros f ->.
      assert (usable q = true) by (eapply U, I; eassumption).
      rewrite (C q f eq_refl) in *. discriminate.
    + intros [(Z & J & _)|[J _]]; [|assumption]. destruct (R _ J). contradiction.
Qed.

Lemma agrees_run : forall es s h s' h',
  agrees s h -> run s es = Returned (s', h') -> allocates (h ++ h') -> agrees s' (h ++ h').
Proof.
  induction es as [|[t c] es IH]; intros s h s' h' G H A; cbn [run] in H.
  - inv H. rewrite app_nil_r. assumption.
  - destruct (step s t c) as [[s1 r]|f] eqn:E; [|discriminate].
    destruct (run s1 es) as [[s2 h2]|f] eqn:E2; [|discriminate]. inv H.
    replace (h ++ (t, c, r) :: h2) with ((h ++ [((t, c), r)]) ++ h2) in *
      by (rewrite <- app_assoc; reflexivity).
    apply (IH s1); auto. eapply agrees_step; eauto. eapply allocates_prefix; eassumption.
Qed.

Lemma agrees_init : agrees init [].
Proof.
  split; [constructor|]. split; [|intros ? ? []].
  intros p k. split; [intros []|]. intros (_ & b & t & c & a & E & _). destruct b; discriminate.
Qed.

Theorem open_iff : forall es s h,
  run init es = Returned (s, h) -> allocates h ->
  NoDup (map fst (boxes s)) /\ forall p k, In (p, k) (boxes s) <-> open_in h p k.
Proof.
  intros es s h H A. destruct (agrees_run es init [] s h agrees_init H A) as (N & I & _). auto.
Qed.

(** Programs that obey are defined. *)
Lemma step_defined : forall s h t c f,
  agrees s h -> obeys h c -> step s t c <> Undefined f.
Proof.
  intros s h t c f (N & I & U) (O1 & O2 & O3).
  assert (forall args, (forall p k, In (p, k) (handles args) -> p = 0 \/ open_in h p k) ->
            forall p k, In (p, k) (handles args) -> p = 0 \/ find_box p (boxes s) = Some k) as F.
  { intros args K p k J. destruct (K p k J) as [|Q]; [auto|]. right.
    apply in_find_box; [assumption|]. apply I. assumption. }
  assert (forall g, handles_of c = handles (arguments c) ->
            fst (convert (boxes s) (arguments c) nothing) <> Faulty g) as D.
  { intros g Q. rewrite Q in O1, O2. apply convert_defined; [apply F; exact O1| | |exact O3].
    - intros p k l k' r E J. apply in_split in J. destruct J as (m & n & ->).
      clear - E O2. revert E.
      (* At most two handles are used by a call. *)
      assert (length (handles (arguments c)) <= 2) as L.
      { destruct c; cbn; repeat match goal with x : _ * _ |- _ => destruct x end; cbn; lia. }
      intros E. rewrite E in L. rewrite ?app_length in L. cbn [length] in L.
      rewrite app_length in L. cbn [length] in L.
      assert (l = [] /\ m = [] /\ n = []) as (-> & -> & ->).
      { destruct l, m, n; cbn in L; try lia; auto. }
      apply (O2 p k [] k' []). exact E.
    - cbn. intros ? ? _ []. }
  destruct (step_cases c) as [(k & o & O & S & P1 & P2 & P3 & Q & NC)|[(p & g & ->)|[->|(S & P & Q & NC)]]].
  - rewrite S. unfold open_step.
    destruct (convert (boxes s) (arguments c) nothing) as [[[]|m|g] w] eqn:E.
    + destruct o; discriminate.
    + discriminate.
    + exfalso. exact (D g Q eq_refl).
  - cbn [step]. unfold close_step. destruct (usable p) eqn:Up; [|discriminate].
    destruct (O1 p (kind_of g) (or_introl eq_refl)) as [->|J]; [discriminate|].
    apply I in J. rewrite (in_find_box _ _ _ N J), kind_eqb_refl. discriminate.
  - cbn [step]. unfold error_step. destruct (last_error s t); discriminate.
  - rewrite S. unfold use_step.
    destruct (convert (boxes s) (arguments c) nothing) as [[[]|m|g] w] eqn:E.
    + destruct (operation_problem c); discriminate.
    + discriminate.
    + exfalso. exact (D g Q eq_refl).
Qed.

Theorem defined : forall es,
  (forall es1 t c es2 s h, es = es1 ++ (t, c) :: es2 -> run init es1 = Returned (s, h) ->
     obeys h c /\ allocates h) ->
  exists s h, run init es = Returned (s, h).
Proof.
  induction es as [|[t c] es IH] using rev_ind; intros H.
  - exists init, []. reflexivity.
  - destruct IH as (s & h & R).
    { intros es1 u d es2 s h -> R. apply (H es1 u d (es2 ++ [(t, c)]) s h); [|assumption].
      rewrite <- app_assoc. reflexivity. }
    destruct (H es t c [] s h eq_refl R) as [O A].
    rewrite run_app, R. cbn [run].
    destruct (step s t c) as [[s' r]|f] eqn:E; [eauto|].
    exfalso. eapply step_defined; [|exact O|exact E].
    exact (agrees_run es init [] s h agrees_init R A).
Qed.

(** Programs that do not are not. *)
Theorem wrong_kind : forall es s h t c p k k' rest,
  run init es = Returned (s, h) -> allocates h -> open_in h p k ->
  handles_of c = (p, k') :: rest -> k' <> k ->
  step s t c = Undefined WrongType.
Proof.
  intros es s h t c p k k' rest R A O H K.
  destruct (agrees_run es init [] s h agrees_init R A) as (N & I & U).
  apply I in O. pose proof (in_find_box _ _ _ N O) as F. pose proof (U _ _ O) as Up.
  assert (forall f, kind_of f = k' -> kind_eqb k (kind_of f) = false) as KE.
  { intros f E. rewrite E. destruct k, k'; cbn; congruence. }
  destruct c; cbn in H; try discriminate;
    repeat match goal with x : _ * _ |- _ => destruct x end; cbn in H; inv H;
    cbn [step]; unfold use_step, close_step, c_void_to_operations; cbn [arguments convert];
    unfold c_void_to_operations; rewrite Up, F, KE by reflexivity; reflexivity.
Qed.

Theorem not_open : forall es s h t c p k' rest,
  run init es = Returned (s, h) -> allocates h -> (forall k, ~ open_in h p k) ->
  handles_of c = (p, k') :: rest -> p <> 0 -> p mod 8 = 0 ->
  step s t c = Undefined Dangling.
Proof.
  intros es s h t c p k' rest R A O H Z M.
  destruct (agrees_run es init [] s h agrees_init R A) as (N & I & U).
  assert (find_box p (boxes s) = None) as F.
  { destruct (find_box p (boxes s)) as [k|] eqn:E; [|reflexivity].
    exfalso. apply (O k). apply I. apply find_box_in. assumption. }
  assert (usable p = true) as Up by (apply usable_iff; auto).
  destruct c; cbn in H; try discriminate;
    repeat match goal with x : _ * _ |- _ => destruct x end; cbn in H; inv H;
    cbn [step]; unfold use_step, close_step, c_void_to_operations; cbn [arguments convert];
    unfold c_void_to_operations; rewrite Up, F; reflexivity.
Qed.

(** All handles of a call that succeeds are open, as what they are used as, and different. *)
Theorem succeeds : forall es s h1 t c r h2,
  run init es = Returned (s, h1 ++ ((t, c), r) :: h2) -> allocates (h1 ++ ((t, c), r) :: h2) ->
  ~ failure r ->
  (forall p k, In (p, k) (handles_of c) -> open_in h1 p k) /\ NoDup (map fst (handles_of c)).
Proof.
  intros es s h1 t c r h2 R A NF.
  destruct (run_split _ _ _ _ _ _ _ R) as (es1 & es2 & s1 & s2 & -> & R1 & S & R2).
  cbn [fst snd] in S.
  destruct (agrees_run es1 init [] s1 h1 agrees_init R1 (allocates_prefix _ _ A)) as (N & I & U).
  destruct (step_cases c) as [(k & o & O & S' & P1 & P2 & P3 & Q & NC)|[(p & g & ->)|[->|(S' & P & Q & NC)]]].
  - rewrite Q. assert (handles (arguments c) = []) as ->; [|split; [intros ? ? []|constructor]].
    destruct c; try reflexivity; discriminate.
  - cbn [step] in S. unfold close_step in S. destruct (usable p) eqn:Up.
    + destruct (find_box p (boxes s1)) as [k|] eqn:F; [|discriminate].
      destruct (kind_eqb k (kind_of g)) eqn:K; [|discriminate].
      assert (k = kind_of g) as -> by (destruct k, (kind_of g); cbn in K; congruence).
      cbn [handles_of map fst]. split; [|repeat constructor; intros []].
      intros q k' [J|[]]. inv J. apply I. apply find_box_in. assumption.
    + inv S. exfalso. apply NF. left. reflexivity.
  - cbn. split; [intros ? ? []|constructor].
  - rewrite S' in S. unfold use_step in S.
    destruct (convert (boxes s1) (arguments c) nothing) as [[[]|m|g] w] eqn:E; try discriminate.
    + destruct (convert_held _ _ _ _ E) as (_ & B & C). rewrite Q. split.
      * intros p k J. apply I. apply find_box_in. apply B. assumption.
      * apply C. constructor.
    + inv S. exfalso. apply NF. left. reflexivity.
Qed.

(** Errors. *)
Lemma step_error : forall s t c s' r,
  step s t c = Returned (s', r) -> ~ is_close c -> (forall p, r = Pointer p -> error_of c = None -> p <> 0) ->
  (failure r -> error_of c <> None /\ last_error s' t = error_of c) /\
  (~ failure r -> error_of c = None).
Proof.
  intros s t c s' r H NC' Z.
  destruct (step_cases c) as [(k & o & O & S & P1 & P2 & P3 & Q & NC)|[(p & g & ->)|[->|(S & P & Q & NC)]]].
  - rewrite S in H. unfold open_step in H.
    destruct (convert (boxes s) (arguments c) nothing) as [[[]|m|g] w] eqn:E; try discriminate.
    + assert (error_of c = match o with Allocated _ => None | Refused m => Some m end) as EO.
      { unfold error_of. rewrite first_problem_app, (convert_fine _ _ _ _ E), P3.
        destruct o; reflexivity. }
      destruct o as [p|m]; inv H.
      * split; [|auto]. intros [F|F]; inv F. exfalso. exact (Z 0 eq_refl EO eq_refl).
      * rewrite EO. split.
        -- intros _. split; [discriminate|]. cbn. unfold set. rewrite Nat.eqb_refl. reflexivity.
        -- intros N. exfalso. apply N. right. reflexivity.
    + inv H. assert (error_of c = Some m) as EO.
      { unfold error_of. rewrite first_problem_app, (convert_failed _ _ _ _ _ E). reflexivity. }
      rewrite EO. split.
      * intros _. split; [discriminate|]. cbn. unfold set. rewrite Nat.eqb_refl. reflexivity.
      * intros N. exfalso. apply N. right. reflexivity.
  - exfalso. apply NC'. eexists _, _. reflexivity.
  - cbn [step] in H. unfold error_step in H. split; [|reflexivity].
    intros [F|F]; subst r; destruct (last_error s t); discriminate.
  - rewrite S in H. unfold use_step in H.
    destruct (convert (boxes s) (arguments c) nothing) as [[[]|m|g] w] eqn:E; try discriminate.
    + assert (error_of c = operation_problem c) as EO.
      { unfold error_of. rewrite first_problem_app, (convert_fine _ _ _ _ E). cbn.
        destruct (operation_problem c); reflexivity. }
      rewrite EO. destruct (operation_problem c) as [m|]; inv H.
      * split.
        -- intros _. split; [discriminate|]. cbn. unfold set. rewrite Nat.eqb_refl. reflexivity.
        -- intros N. exfalso. apply N. left. reflexivity.
      * split; [|auto]. intros [F|F]; inv F.
    + inv H. assert (error_of c = Some m) as EO.
      { unfold error_of. rewrite first_problem_app, (convert_failed _ _ _ _ _ E). reflexivity. }
      rewrite EO. split.
      * intros _. split; [discriminate|]. cbn. unfold set. rewrite Nat.eqb_refl. reflexivity.
      * intros N. exfalso. apply N. left. reflexivity.
Qed.

(** Calls that succeed, closing, and the calls of other threads keep the last error. *)
Lemma step_keeps_error : forall s t c s' r u,
  step s t c = Returned (s', r) -> (u <> t \/ ~ failure r \/ is_close c) ->
  last_error s' u = last_error s u.
Proof.
  intros s t c s' r u H K.
  assert (forall m w, (u <> t \/ ~ failure r) -> failure r ->
            last_error (with_error s t m w) u = last_error s u) as D.
  { intros m w [Q|Q] F; [|contradiction]. cbn. unfold set.
    apply Nat.eqb_neq in Q. rewrite Q. reflexivity. }
  destruct (step_cases c) as [(k & o & O & S & P1 & P2 & P3 & Q & NC)|[(p & g & ->)|[->|(S & P & Q & NC)]]].
  - rewrite S in H. unfold open_step in H.
    assert (u <> t \/ ~ failure r) as K' by tauto.
    destruct (convert (boxes s) (arguments c) nothing) as [[[]|m|g] w] eqn:E; try discriminate.
    + destruct o; inv H; [reflexivity|]. apply D; [assumption|right; reflexivity].
    + inv H. apply D; [assumption|right; reflexivity].
  - cbn [step] in H. unfold close_step in H. destruct (usable p); [|inv H; reflexivity].
    destruct (find_box p (boxes s)) as [k|]; [|discriminate].
    destruct (kind_eqb k (kind_of g)); [|discriminate]. inv H. reflexivity.
  - cbn [step] in H. unfold error_step in H. destruct (last_error s t); inv H; reflexivity.
  - rewrite S in H. unfold use_step in H.
    assert (u <> t \/ ~ failure r) as K' by tauto.
    destruct (convert (boxes s) (arguments c) nothing) as [[[]|m|g] w] eqn:E; try discriminate.
    + destruct (operation_problem c); inv H; [|reflexivity].
      apply D; [assumption|left; reflexivity].
    + inv H. apply D; [assumption|left; reflexivity].
Qed.

Lemma run_keeps_error : forall es s s' h t,
  run s es = Returned (s', h) ->
  (forall c r, In ((t, c), r) h -> failure r -> is_close c) ->
  last_error s' t = last_error s t.
Proof.
  induction es as [|[u c] es IH]; intros s s' h t H K; cbn [run] in H.
  - inv H. reflexivity.
  - destruct (step s u c) as [[s1 r]|f] eqn:E; [|discriminate].
    destruct (run s1 es) as [[s2 h2]|f] eqn:E2; [|discriminate]. inv H.
    rewrite (IH _ _ _ t E2) by (intros; eapply K; [right|]; eassumption).
    apply (step_keeps_error _ _ _ _ _ _ E).
    destruct (Nat.eq_dec t u) as [->|N]; [|auto]. right.
    assert (failure r \/ ~ failure r) as [F|F].
    { unfold failure. destruct r as [[|[|n]]|[|p]|m]; auto; right; intros [Q|Q]; discriminate. }
    + right. apply (K c r); [left; reflexivity|assumption].
    + auto.
Qed.

Theorem error_reported : forall es s h1 t c r h2 q,
  run init es = Returned (s, h1 ++ ((t, c), r) :: h2 ++ [((t, LastError), q)]) ->
  allocates (h1 ++ ((t, c), r) :: h2 ++ [((t, LastError), q)]) ->
  failure r -> ~ is_close c ->
  (forall c' r', In ((t, c'), r') h2 -> failure r' -> is_close c') ->
  exists m error, q = Message (Some m) /\ error_of c = Some error /\
    read_message s m = Some (before_zero error).
Proof.
  intros es s h1 t c r h2 q R A F NC K.
  destruct (run_split _ _ _ _ _ _ _ R) as (es1 & es2 & s1 & s2 & -> & R1 & S & R2).
  destruct (run_split _ _ _ _ _ _ _ R2) as (es3 & es4 & s3 & s4 & -> & R3 & S4 & R4).
  cbn [fst snd] in *.
  assert (es4 = []) as ->.
  { apply run_events in R4. destruct es4; [reflexivity|discriminate]. }
  cbn in R4. inv R4.
  destruct (step_error _ _ _ _ _ S NC) as [E _].
  { intros p -> EN. exact (proj1 (A h1 t c p _ eq_refl EN)). }
  destruct (E F) as [EN EL]. destruct (error_of c) as [error|]; [|contradiction].
  pose proof (run_keeps_error _ _ _ _ t R3 K) as L. rewrite EL in L.
  cbn [step] in S4. unfold error_step in S4. rewrite L in S4. inv S4.
  eexists _, _. split; [reflexivity|]. split; [reflexivity|].
  cbn. unfold set. rewrite Nat.eqb_refl, Nat.eqb_refl. reflexivity.
Qed.

Theorem fails_iff : forall es s h1 t c r h2,
  run init es = Returned (s, h1 ++ ((t, c), r) :: h2) -> allocates (h1 ++ ((t, c), r) :: h2) ->
  ~ is_close c -> (failure r <-> error_of c <> None).
Proof.
  intros es s h1 t c r h2 R A NC.
  destruct (run_split _ _ _ _ _ _ _ R) as (es1 & es2 & s1 & s2 & -> & R1 & S & R2).
  destruct (step_error _ _ _ _ _ S NC) as [E N].
  { intros p -> EN. exact (proj1 (A h1 t c p _ eq_refl EN)). }
  cbn [fst snd] in *.
  split; [intros F; exact (proj1 (E F))|]. intros K.
  unfold failure in *. destruct r as [[|[|n]]|[|p]|m]; auto;
    exfalso; apply K, N; intros [Q|Q]; discriminate.
Qed.

(** Pointers to errors. *)
Lemma step_keeps_cstring : forall s t c s' r u,
  step s t c = Returned (s', r) -> (u <> t \/ c <> LastError) ->
  error_cstring s' u = error_cstring s u.
Proof.
  intros s t c s' r u H K.
  destruct (step_cases c) as [(k & o & O & S & P1 & P2 & P3 & Q & NC)|[(p & g & ->)|[->|(S & P & Q & NC)]]].
  - rewrite S in H. unfold open_step in H.
    destruct (convert (boxes s) (arguments c) nothing) as [[[]|m|g] w] eqn:E; try discriminate.
    + destruct o; inv H; reflexivity.
    + inv H. reflexivity.
  - cbn [step] in H. unfold close_step in H. destruct (usable p); [|inv H; reflexivity].
    destruct (find_box p (boxes s)) as [k|]; [|discriminate].
    destruct (kind_eqb k (kind_of g)); [|discriminate]. inv H. reflexivity.
  - cbn [step] in H. unfold error_step in H. destruct (last_error s t); inv H; [|reflexivity].
    cbn. unfold set. destruct K as [K|K]; [|contradiction].
    apply Nat.eqb_neq in K. rewrite K. reflexivity.
  - rewrite S in H. unfold use_step in H.
    destruct (convert (boxes s) (arguments c) nothing) as [[[]|m|g] w] eqn:E; try discriminate.
    + destruct (operation_problem c); inv H; reflexivity.
    + inv H. reflexivity.
Qed.
Lemma run_keeps_cstring : forall es s s' h t,
  run s es = Returned (s', h) -> ~ In (t, LastError) es ->
  error_cstring s' t = error_cstring s t.
Proof.
  induction es as [|[u c] es IH]; intros s s' h t H K; cbn [run] in H.
  - inv H. reflexivity.
  - destruct (step s u c) as [[s1 r]|f] eqn:E; [|discriminate].
    destruct (run s1 es) as [[s2 h2]|f] eqn:E2; [|discriminate]. inv H.
    rewrite (IH _ _ _ t E2) by (intros I; apply K; right; assumption).
    apply (step_keeps_cstring _ _ _ _ _ _ E).
    destruct (Nat.eq_dec t u) as [->|N]; [|auto]. right. intros ->. apply K. left. reflexivity.
Qed.
Theorem message_valid : forall s1 t s2 m es s3 h,
  step s1 t LastError = Returned (s2, Message (Some m)) ->
  run s2 es = Returned (s3, h) -> ~ In (t, LastError) es ->
  exists text, last_error s1 t = Some text /\ read_message s3 m = Some (before_zero text).
Proof.
  intros s1 t s2 m es s3 h S R K. cbn [step] in S. unfold error_step in S.
  destruct (last_error s1 t) as [text|]; inv S. exists text. split; [reflexivity|].
  cbn. rewrite (run_keeps_cstring _ _ _ _ t R K). cbn. unfold set.
  rewrite Nat.eqb_refl, Nat.eqb_refl. reflexivity.
Qed.

(** Arrays. *)
Lemma convert_released : forall b args w,
  exists l r, arrays args = l ++ r /\ released (snd (convert b args w)) = released w ++ l /\
    (fst (convert b args w) = Fine tt -> r = []).
Proof.
  induction args as [|a args IH]; intros w.
  - exists [], []. cbn. rewrite app_nil_r. auto.
  - destruct a as [p f|s|s|a problem|a problem]; cbn [convert arrays].
    + destruct (c_void_to_operations b (held w) p f); [match goal with |- context [convert b args ?w'] => exact (IH w') end| |];
        exists [], (arrays args); cbn; rewrite app_nil_r; repeat split; discriminate.
    + destruct (c_char_ptr_to_str s); [match goal with |- context [convert b args ?w'] => exact (IH w') end| |];
        exists [], (arrays args); cbn; rewrite app_nil_r; repeat split; discriminate.
    + destruct (c_char_ptr_to_maybe_str s); [match goal with |- context [convert b args ?w'] => exact (IH w') end| |];
        exists [], (arrays args); cbn; rewrite app_nil_r; repeat split; discriminate.
    + destruct problem.
      * exists [a], (arrays args). cbn. repeat split. discriminate.
      * match goal with |- context [convert b args ?w'] => destruct (IH w') as (l & r & E & R & F) end.
        exists (a :: l), r. rewrite E. split; [reflexivity|]. split; [|assumption].
        rewrite R. cbn [released]. rewrite <- app_assoc. reflexivity.
    + destruct problem; [|apply IH].
      exists [], (arrays args). cbn. rewrite app_nil_r. repeat split. discriminate.
Qed.

Lemma step_released : forall s t c s' r,
  step s t c = Returned (s', r) ->
  exists l m, arrays (arguments c) = l ++ m /\ all_released s' = all_released s ++ l /\
    (error_of c = None -> m = []).
Proof.
  intros s t c s' r H.
  destruct (convert_released (boxes s) (arguments c) nothing) as (l & m & E & R & F).
  change (released nothing) with (@nil nat) in R. cbn [app] in R.
  destruct (step_cases c) as [(k & o & O & S & P1 & P2 & P3 & Q & NC)|[(p & g & ->)|[->|(S & P & Q & NC)]]].
  - rewrite S in H. unfold open_step in H.
    destruct (convert (boxes s) (arguments c) nothing) as [[[]|x|g] w] eqn:C; try discriminate;
      cbn [fst snd] in *.
    + exists l, m. split; [assumption|]. split; [|intros _; apply F; reflexivity].
      destruct o; inv H; cbn; congruence.
    + exists l, m. split; [assumption|]. inv H. split; [cbn; congruence|].
      unfold error_of. rewrite first_problem_app, (convert_failed _ _ _ _ _ C). discriminate.
  - exists [], []. cbn. rewrite app_nil_r. repeat split.
    cbn [step] in H. unfold close_step in H. destruct (usable p); [|inv H; reflexivity].
    destruct (find_box p (boxes s)) as [k|]; [|discriminate].
    destruct (kind_eqb k (kind_of g)); [|discriminate]. inv H. reflexivity.
  - exists [], []. cbn. rewrite app_nil_r. repeat split.
    cbn [step] in H. unfold error_step in H. destruct (last_error s t); inv H; reflexivity.
  - rewrite S in H. unfold use_step in H.
    destruct (convert (boxes s) (arguments c) nothing) as [[[]|x|g] w] eqn:C; try discriminate;
      cbn [fst snd] in *.
    + exists l, m. split; [assumption|]. split; [|intros _; apply F; reflexivity].
      destruct (operation_problem c); inv H; cbn; congruence.
    + exists l, m. split; [assumption|]. inv H. split; [cbn; congruence|].
      unfold error_of. rewrite first_problem_app, (convert_failed _ _ _ _ _ C). discriminate.
Qed.

Lemma run_released : forall es s s' h,
  run s es = Returned (s', h) ->
  exists l, all_released s' = all_released s ++ l /\
    (forall x, count_occ Nat.eq_dec l x <= count_occ Nat.eq_dec (passed es) x) /\
    ((forall t c, In (t, c) es -> error_of c = None) -> l = passed es).
Proof.
  induction es as [|[t c] es IH]; intros s s' h H; cbn [run] in H.
  - inv H. exists []. rewrite app_nil_r. cbn. auto.
  - destruct (step s t c) as [[s1 r]|f] eqn:E; [|discriminate].
    destruct (run s1 es) as [[s2 h2]|f] eqn:E2; [|discriminate]. inv H.
    destruct (IH _ _ _ E2) as (l2 & R2 & C2 & F2).
    destruct (step_released _ _ _ _ _ E) as (l & m & A & R1 & F1).
    exists (l ++ l2). rewrite R2, R1, app_assoc. split; [reflexivity|].
    unfold passed in *. cbn [flat_map snd]. rewrite A. split.
    + intros x. rewrite ?count_occ_app. specialize (C2 x). lia.
    + intros K. rewrite (F1 (K t c (or_introl eq_refl))), app_nil_r. f_equal.
      apply F2. intros u d I. apply (K u d). right. assumption.
Qed.
Theorem released_once : forall es s h,
  run init es = Returned (s, h) ->
  (forall x, count_occ Nat.eq_dec (all_released s) x <= count_occ Nat.eq_dec (passed es) x) /\
  ((forall t c, In (t, c) es -> error_of c = None) -> all_released s = passed es).
Proof.
  intros es s h H. destruct (run_released _ _ _ _ H) as (l & R & C & F). cbn in R. rewrite R. auto.
Qed.

(** Python. *)
Definition box_of (v : nat * (nat * bool)) : nat * kind := (fst (snd v), kind_of (snd (snd v))).
Definition matches (o : objects) (s : state) : Prop :=
  boxes s = map box_of o /\ NoDup (map fst o) /\ NoDup (map fst (map box_of o)) /\
  forall x p f, In (x, (p, f)) o -> usable p = true.

Lemma find_object_in : forall o x v, find_object x o = Some v -> In (x, v) o.
Proof.
  induction o as [|[y w] o IH]; intros x v; cbn; [discriminate|].
  destruct (y =? x) eqn:E; [|eauto]. apply Nat.eqb_eq in E. intros H; inv H. auto.
Qed.
Lemma find_object_none : forall o x, find_object x o = None -> ~ In x (map fst o).
Proof.
  induction o as [|[y w] o IH]; intros x; cbn; [auto|].
  destruct (y =? x) eqn:E; [discriminate|]. apply Nat.eqb_neq in E.
  intros H [->|I]; [contradiction|]. exact (IH x H I).
Qed.
Lemma remove_object_box : forall o x p f,
  NoDup (map fst o) -> NoDup (map fst (map box_of o)) -> In (x, (p, f)) o ->
  map box_of (remove_object x o) = remove_box p (map box_of o).
Proof.
  induction o as [|[y [q g]] o IH]; intros x p f N1 N2 I; [destruct I|].
  cbn in *. inv N1. inv N2. destruct I as [I|I].
  - inv I. rewrite ?Nat.eqb_refl. reflexivity.
  - destruct (y =? x) eqn:E.
    + apply Nat.eqb_eq in E. subst y. exfalso. apply H1. apply (in_map fst) in I. exact I.
    + destruct (q =? p) eqn:E2.
      * apply Nat.eqb_eq in E2. subst q. exfalso. apply H3.
        apply (in_map box_of) in I. apply (in_map fst) in I. exact I.
      * cbn. f_equal. eapply IH; eassumption.
Qed.
Lemma remove_object_incl : forall o x v, In v (remove_object x o) -> In v o.
Proof.
  induction o as [|[y w] o IH]; intros x v; cbn; [auto|].
  destruct (y =? x); cbn; [auto|]. intros [I|I]; eauto.
Qed.
Lemma remove_object_nodup : forall o x, NoDup (map fst o) -> NoDup (map fst (remove_object x o)).
Proof.
  induction o as [|[y w] o IH]; intros x N; cbn; [assumption|]. inv N.
  destruct (y =? x); [assumption|]. cbn. constructor; [|auto].
  intros I. apply H1. apply in_map_iff in I. destruct I as (v & Q & I).
  apply remove_object_incl in I. rewrite <- Q. apply in_map. assumption.
Qed.

Lemma checked_boxes : forall o r,
  match checked o r with
  | Running o' s' => exists s1 q, r = Returned (s1, q) /\ o' = o /\ boxes s' = boxes s1
  | PyUndefined f => r = Undefined f
  | Impossible => False
  end.
Proof.
  intros o [[s q]|f]; cbn [checked]; [|reflexivity].
  assert (match (match step s 0 LastError with
                 | Returned (s, _) => Running o s
                 | Undefined f => PyUndefined f
                 end) with
          | Running o' s' => exists s1 q', Returned (s, q) = Returned (s1, q') /\ o' = o /\
                               boxes s' = boxes s1
          | PyUndefined f => Returned (s, q) = Undefined f
          | Impossible => False
          end) as G.
  { cbn [step]. unfold error_step. destruct (last_error s 0); eauto. }
  destruct q as [[|n]|p|m]; try exact G. eauto.
Qed.

Lemma use_boxes : forall s t c r s' q, use_step s t c r = Returned (s', q) -> boxes s' = boxes s.
Proof.
  intros s t c r s' q. unfold use_step.
  destruct (convert (boxes s) (arguments c) nothing) as [[[]|m|f] w]; try discriminate.
  - destruct r; intros H; inv H; reflexivity.
  - intros H; inv H. reflexivity.
Qed.

Lemma new_char_terminated : forall s, terminated (new_char s).
Proof. intros s bytes H. inv H. exists s, ""%string. reflexivity. Qed.
Lemma none_terminated : terminated None.
Proof. intros bytes H. discriminate. Qed.
Lemma maybe_terminated : forall s, terminated (str_to_c_char_ptr s).
Proof.
  intros [[|c s]|]; cbn; try apply none_terminated. apply new_char_terminated.
Qed.

Lemma del_matches : forall o s x p f,
  matches o s -> find_object x o = Some (p, f) ->
  match del o s x p f with
  | Running o' s' => matches o' s' /\ o' = remove_object x o
  | PyUndefined _ => False
  | Impossible => False
  end.
Proof.
  intros o s x p f (B & N1 & N2 & U) F. apply find_object_in in F. unfold del.
  pose proof (checked_boxes (remove_object x o) (step s 0 (Close p f))) as C.
  cbn [step] in *. unfold close_step in *. rewrite (U _ _ _ F) in *.
  assert (find_box p (boxes s) = Some (kind_of f)) as FB.
  { rewrite B. apply in_find_box; [assumption|]. apply (in_map box_of) in F. exact F. }
  rewrite FB, kind_eqb_refl in *.
  destruct (checked _ _) as [o' s'|g|]; [|discriminate|exact C].
  destruct C as (s1 & q & Q & -> & BS). inv Q. cbn [boxes] in BS.
  split; [|reflexivity]. split; [|split; [|split]].
  - rewrite BS, B. symmetry. eapply remove_object_box; eassumption.
  - apply remove_object_nodup. assumption.
  - rewrite (remove_object_box _ _ _ _ N1 N2 F). apply remove_box_nodup. assumption.
  - intros y q g I. eapply U. eapply remove_object_incl. eassumption.
Qed.

Lemma usable_zero : usable 0 = false.
Proof. reflexivity. Qed.

Lemma del_null : forall o s x f,
  matches o s -> find_object x o = None ->
  match del o s x 0 f with
  | Running o' s' => matches o' s'
  | _ => False
  end.
Proof.
  intros o s x f M F. unfold del.
  pose proof (checked_boxes (remove_object x o) (step s 0 (Close 0 f))) as C.
  cbn [step] in *. unfold close_step in *. rewrite usable_zero in *.
  destruct (checked _ _) as [o' s'|g|]; [|discriminate|exact C].
  destruct C as (s1 & q & Q & -> & BS). inv Q.
  assert (remove_object x o = o) as ->.
  { clear - F. induction o as [|[y w] o IH]; cbn in *; [reflexivity|].
    destruct (y =? x); [discriminate|]. rewrite IH; auto. }
  destruct M as (B & N1 & N2 & U). repeat split; auto. congruence.
Qed.

Lemma call_matches : forall o s c,
  matches o s -> (forall s t, step s t c = use_step s t c (operation_problem c)) ->
  (forall f, fst (convert (boxes s) (arguments c) nothing) <> Faulty f) ->
  match checked o (step s 0 c) with
  | Running o' s' => matches o' s' /\ o' = o
  | _ => False
  end.
Proof.
  intros o s c (B & N1 & N2 & U) S D.
  pose proof (checked_boxes o (step s 0 c)) as C.
  destruct (checked o (step s 0 c)) as [o' s'|g|]; [| |exact C].
  - destruct C as (s1 & q & Q & -> & BS). rewrite S in Q. apply use_boxes in Q.
    split; [|reflexivity]. repeat split; auto. congruence.
  - rewrite S in C. unfold use_step in C.
    destruct (convert (boxes s) (arguments c) nothing) as [[[]|m|f] w] eqn:E; try discriminate.
    + destruct (operation_problem c); discriminate.
    + apply (D f). reflexivity.
Qed.

Ltac terminate :=
  match goal with
  | |- forall s, _ => let I := fresh in intros ? I; cbn in I;
      repeat match goal with
      | I : _ \/ _ |- _ => destruct I as [I|I]
      | I : False |- _ => destruct I
      | I : Required _ = Required _ |- _ => inv I
      | I : Optional _ = Optional _ |- _ => inv I
      | I : _ = _ |- _ => discriminate I
      end;
      solve [ apply new_char_terminated | apply maybe_terminated | apply none_terminated
            | match goal with |- context [match ?r with _ => _ end] => destruct r end;
              [apply new_char_terminated | apply none_terminated] ]
  end.

Lemma python_step_matches : forall o s a,
  matches o s -> keeps_apart o a -> opened_with a ->
  match python_step o s a with
  | Running o' s' => matches o' s'
  | PyUndefined _ => False
  | Impossible => True
  end.
Proof.
  intros o s a M K W. pose proof M as (B & N1 & N2 & U).
  destruct a as [x c|x m|x y held m|x]; cbn [python_step].
  - assert (forall k r f, opened_by c = Some (k, r) -> k = kind_of f ->
      match (match find_object x o with
        | Some _ => Impossible
        | None =>
            if match r with Allocated p => fresh p o | Refused _ => true end then
              match step s 0 c with
              | Undefined f => PyUndefined f
              | Returned (s, Pointer p) =>
                  if p =? 0 then del o s x p f else Running ((x, (p, f)) :: o) s
              | Returned (s, _) => Impossible
              end
            else Impossible
        end) with
      | Running o' s' => matches o' s' | PyUndefined _ => False | Impossible => True end) as G.
    { intros k r f O ->. destruct (find_object x o) eqn:F; [exact I|].
      destruct (match r with Allocated p => fresh p o | Refused _ => true end) eqn:FR; [|exact I].
      destruct (step_cases c) as [(k & r' & O' & S & P1 & P2 & P3 & Q & NC)|Q].
      2:{ exfalso. destruct Q as [(p & g & ->)|[->|(_ & Q & _)]]; try discriminate.
          apply (Q (kind_of f)). destruct c; cbn in O |- *; try discriminate; inv O; congruence. }
      rewrite O in O'. inv O'. rewrite S. unfold open_step.
      destruct (convert (boxes s) (arguments c) nothing) as [[[]|m|g] w] eqn:E.
      - destruct r' as [p|m].
        + unfold fresh in FR. apply andb_true_iff in FR. destruct FR as [Up FR].
          destruct (p =? 0) eqn:Z; [apply Nat.eqb_eq in Z; subst p; discriminate|].
          apply negb_true_iff in FR. split; [|split; [|split]].
          * cbn. rewrite B. reflexivity.
          * cbn. constructor; [|assumption]. apply find_object_none. assumption.
          * cbn. constructor; [|assumption]. intros J. rewrite map_map in J.
            apply in_map_iff in J. destruct J as ([y [q g]] & Q2 & J). cbn in Q2. subst q.
            assert (existsb (fun v => fst (snd v) =? p) o = true); [|congruence].
            apply existsb_exists. eexists. split; [exact J|]. cbn. apply Nat.eqb_refl.
          * intros y q g [J|J]; [inv J; assumption|eauto].
        + cbn [Nat.eqb]. pose proof (del_null o (with_error s 0 m w) x f) as D.
          destruct (del o _ x 0 f); auto; apply D; auto; split; auto.
      - cbn [Nat.eqb]. pose proof (del_null o (with_error s 0 m w) x f) as D.
        destruct (del o _ x 0 f); auto; apply D; auto; split; auto.
      - exfalso. assert (fst (convert (boxes s) (arguments c) nothing) <> Faulty g) as D.
        { assert (handles (arguments c) = []) as H by (destruct c; try reflexivity; discriminate).
          apply convert_defined; rewrite ?H; try (intros; contradiction).
          - intros p k l k' r0 X. destruct l; discriminate.
          - intros s0 [J|J].
            + destruct (W _ J) as [t ->]. apply new_char_terminated.
            + destruct c; cbn in J; try discriminate; exfalso;
                repeat (destruct J as [J|J]; try discriminate); assumption. }
        apply D. rewrite E. reflexivity. }
    destruct c; try exact I; apply (G _ _ _ eq_refl); reflexivity.
  - destruct (find_object x o) as [[p f]|] eqn:F; [|exact I].
    pose proof (find_object_in _ _ _ F) as J.
    assert (find_box p (boxes s) = Some (kind_of f)) as FB.
    { rewrite B. apply in_find_box; [assumption|]. apply (in_map box_of) in J. exact J. }
    pose proof (call_matches o s (method_call m p f) M) as C.
    destruct (checked o (step s 0 (method_call m p f))) as [o' s'|g|]; [| |exact I].
    + apply C; [destruct m; reflexivity|].
      intros g. apply convert_defined.
      * intros q k. destruct m; cbn;
          repeat match goal with v : _ * _ |- _ => destruct v end; cbn; intros [Q|[]]; inv Q; auto.
      * intros q k l k' r. destruct m; cbn;
          repeat match goal with v : _ * _ |- _ => destruct v end; cbn;
          (destruct l as [|? [|]]; [|discriminate|discriminate]); intros Q; inv Q; intros [].
      * cbn. intros; contradiction.
      * destruct m; cbn;
          repeat match goal with v : _ * _ |- _ => destruct v end; cbn; terminate.
    + apply C; [destruct m; reflexivity|].
      intros g'. apply convert_defined.
      * intros q k. destruct m; cbn;
          repeat match goal with v : _ * _ |- _ => destruct v end; cbn; intros [Q|[]]; inv Q; auto.
      * intros q k l k' r. destruct m; cbn;
          repeat match goal with v : _ * _ |- _ => destruct v end; cbn;
          (destruct l as [|? [|]]; [|discriminate|discriminate]); intros Q; inv Q; intros [].
      * cbn. intros; contradiction.
      * destruct m; cbn;
          repeat match goal with v : _ * _ |- _ => destruct v end; cbn; terminate.
  - destruct (find_object x o) as [[p f]|] eqn:F; [|exact I].
    destruct (find_object y o) as [[q g]|] eqn:F2; [|exact I].
    cbn [keeps_apart] in K. destruct K as (-> & NE & K). pose proof (K _ _ _ _ F F2) as <-.
    pose proof (find_object_in _ _ _ F) as J. pose proof (find_object_in _ _ _ F2) as J2.
    assert (p <> q) as PQ.
    { intros ->. apply NE. clear - N2 J J2.
      induction o as [|[z v] o IH]; [destruct J|]. cbn in N2. inv N2.
      destruct J as [J|J], J2 as [J2|J2].
      - congruence.
      - inv J. exfalso. apply H1. apply (in_map box_of) in J2. apply (in_map fst) in J2. exact J2.
      - inv J2. exfalso. apply H1. apply (in_map box_of) in J. apply (in_map fst) in J. exact J.
      - auto. }
    assert (find_box p (boxes s) = Some (kind_of f)) as FB.
    { rewrite B. apply in_find_box; [assumption|]. apply (in_map box_of) in J. exact J. }
    assert (find_box q (boxes s) = Some (kind_of f)) as FB2.
    { rewrite B. apply in_find_box; [assumption|]. apply (in_map box_of) in J2. exact J2. }
    pose proof (call_matches o s (transfer_call m p f q) M) as C.
    assert (forall g', fst (convert (boxes s) (arguments (transfer_call m p f q)) nothing)
              <> Faulty g') as D.
    { intros g'. apply convert_defined.
      * intros a k. destruct m; cbn;
          repeat match goal with v : _ * _ |- _ => destruct v end; cbn;
          intros [Q|[Q|[]]]; inv Q; auto.
      * intros a k l k' r. destruct m; cbn;
          repeat match goal with v : _ * _ |- _ => destruct v end; cbn;
          (destruct l as [|? [|? [|]]]; [| |discriminate|discriminate]); intros Q; inv Q;
          intros X; repeat (destruct X as [X|X]; try contradiction); inv X; contradiction.
      * cbn. intros; contradiction.
      * destruct m; cbn;
          repeat match goal with v : _ * _ |- _ => destruct v end; cbn; terminate. }
    destruct (checked o (step s 0 (transfer_call m p f q))) as [o' s'|h|]; [| |exact I];
      apply C; auto; destruct m; reflexivity.
  - destruct (find_object x o) as [[p f]|] eqn:F; [|exact I].
    pose proof (del_matches o s x p f M F) as D.
    destruct (del o s x p f); [apply D|destruct D|exact I].
Qed.

Theorem python_defined : forall program o s,
  matches o s ->
  (forall a, In a program -> opened_with a) ->
  (forall p1 a p2 o' s', program = p1 ++ a :: p2 -> python_run o s p1 = Running o' s' ->
     keeps_apart o' a) ->
  match python_run o s program with
  | Running o' s' => matches o' s'
  | PyUndefined _ => False
  | Impossible => True
  end.
Proof.
  induction program as [|a program IH]; intros o s M W K; cbn [python_run]; [assumption|].
  pose proof (python_step_matches o s a M (K [] a program o s eq_refl eq_refl)
                (W a (or_introl eq_refl))) as P.
  destruct (python_step o s a) as [o' s'|f|] eqn:E; [|destruct P|exact I].
  apply IH; auto.
  - intros b J. apply W. right. assumption.
  - intros p1 b p2 o2 s2 -> R. apply (K (a :: p1) b p2 o2 s2); [reflexivity|].
    cbn [python_run]. rewrite E. assumption.
Qed.

Lemma matches_init : matches [] init.
Proof. repeat split; try constructor; intros ? ? ? []. Qed.
