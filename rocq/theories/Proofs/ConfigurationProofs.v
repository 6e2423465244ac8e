(** Proofs about the configuration of a server. *)
From Coq Require Import ZArith List Bool Lia.
From Verif Require Import Model.Base Model.Configuration Spec.ConfigurationSpec.
Import ListNotations.

Lemma flags_replace : forall p a c,
  get p (update_from_args a c) = match given p a with Some v => Some v | None => get p c end.
Proof.
  intros [[]|] a c; cbn [get given update_from_args multivariate_memory uncompressed_memory
    compressed_memory transfer_batch_size transfer_time segment_size wal_enabled];
    unfold or_keep, or_keep_option.
  - now destruct (arg_multivariate_memory a).
  - now destruct (arg_uncompressed_memory a).
  - now destruct (arg_compressed_memory a).
  - now destruct (arg_transfer_batch_size a).
  - now destruct (arg_transfer_time a).
  - now destruct (arg_segment_size a).
  - now destruct (arg_wal_enabled a).
Qed.

Section Server.
Variable bytes : Type.
Variable to_toml : configuration -> outcome bytes.
Variable from_toml : bytes -> outcome configuration.
Notation run := (run bytes to_toml from_toml).
Notation step := (step bytes to_toml from_toml).

Lemma set_replaces : forall p x value engine put c,
  (value = None -> is_optional x = true) ->
  get p (set x value c) = replaced p (get p c) (@Updated bytes x value engine put, Ok tt).
Proof.
  intros p x value engine put [m u d b t s i w r e] H.
  destruct x, value as [v|]; try (specialize (H eq_refl); discriminate);
    destruct p as [[]|]; reflexivity.
Qed.

Definition one_thread (c : configuration) : Prop :=
  ingestion_threads c = 1 /\ compression_threads c = 1 /\ writer_threads c = 1.
Lemma validate_iff : forall c, validate c = Ok tt <-> one_thread c.
Proof.
  intros c. unfold validate, one_thread.
  destruct (Z.eqb_spec (ingestion_threads c) 1), (Z.eqb_spec (compression_threads c) 1),
    (Z.eqb_spec (writer_threads c) 1); cbn [negb orb]; split; intros H;
    try discriminate; try tauto; intuition congruence.
Qed.
Lemma set_threads : forall x value c, one_thread c -> one_thread (set x value c).
Proof. intros x value [m u d b t s i w r e] H. destruct x; exact H. Qed.

(** The result of starting a server. *)
Inductive start (a : args) (s : state bytes) (s' : state bytes) (r : outcome unit) : Prop :=
| Not_started : r = Err -> file bytes s' = file bytes s -> running bytes s' = None -> start a s s' r
| Almost_started : forall c toml,
    match file bytes s with Some f => from_toml f | None => Ok default end = Ok c ->
    to_toml (update_from_args a c) = Ok toml -> one_thread (update_from_args a c) ->
    file bytes s' = Some toml ->
    (r = Ok tt /\ running bytes s' = Some (update_from_args a c)
     \/ r = Err /\ running bytes s' = None) -> start a s s' r.

Lemma try_new_start : forall a read put others s s' r,
  try_new bytes to_toml from_toml a read put others s = (s', r) ->
  start a s s' r /\ (others = true -> r = Err -> file bytes s' = file bytes s).
Proof.
  intros a read put others s s' r H. unfold try_new in H.
  assert (N : State (file bytes s) None = s' -> Err = r -> start a s s' r
            /\ (others = true -> r = Err -> file bytes s' = file bytes s)).
  { intros <- <-. split; [now apply Not_started|now intros _ _]. }
  destruct read; [|injection H; intros; now apply N].
  destruct (match file bytes s with Some f => from_toml f | None => Ok default end)
    as [c| |] eqn:L; cbn [bind] in H; try (injection H; intros; now apply N).
  destruct (validate (update_from_args a c)) as [[]| |] eqn:V; cbn [bind] in H;
    try (injection H; intros; now apply N).
  apply validate_iff in V. unfold save_to_toml in H.
  destruct (to_toml (update_from_args a c)) as [toml| |] eqn:T;
    try (injection H; intros; now apply N).
  destruct put; [|injection H; intros; now apply N].
  destruct others; injection H as <- <-.
  - split; [|discriminate]. apply (Almost_started _ _ _ _ c toml); auto.
  - split; [|discriminate]. apply (Almost_started _ _ _ _ c toml); auto.
Qed.

(** The result of an update. *)
Inductive change (x : setting) (value : option Z) (engine put : bool) (s s' : state bytes)
  (r : outcome unit) : Prop :=
| Refused : r = Err -> s' = s -> change x value engine put s s' r
| Not_saved : forall c, r = Err -> running bytes s = Some c ->
    (value = None -> is_optional x = true) ->
    (put = true -> forall toml, to_toml (set x value c) <> Ok toml) ->
    s' = State (file bytes s) (Some (set x value c)) -> change x value engine put s s' r
| Changed : forall c toml, r = Ok tt -> running bytes s = Some c ->
    (value = None -> is_optional x = true) ->
    to_toml (set x value c) = Ok toml -> put = true ->
    s' = State (Some toml) (Some (set x value c)) -> change x value engine put s s' r.

Lemma update_change : forall x value engine put s s' r,
  update bytes to_toml x value engine put s = (s', r) -> change x value engine put s s' r.
Proof.
  intros x value engine put s s' r H. unfold update in H.
  destruct (running bytes s) as [c|] eqn:R; [|injection H as <- <-; now apply Refused].
  destruct (match value with None => negb (is_optional x) | Some _ => false end) eqn:V;
    [injection H as <- <-; now apply Refused|].
  assert (O : value = None -> is_optional x = true).
  { intros ->. now destruct (is_optional x). }
  destruct (match x with Multivariate_memory => false | Segment_size => negb (wal_enabled c)
            | _ => negb engine end); [injection H as <- <-; now apply Refused|].
  unfold save_to_toml in H. destruct (to_toml (set x value c)) as [toml| |] eqn:T.
  - destruct put; injection H as <- <-.
    + now apply (Changed _ _ _ _ _ _ _ c toml).
    + now apply (Not_saved _ _ _ _ _ _ _ c).
  - injection H as <- <-. apply (Not_saved _ _ _ _ _ _ _ c); try easy. intros _ toml. congruence.
  - injection H as <- <-. apply (Not_saved _ _ _ _ _ _ _ c); try easy. intros _ toml. congruence.
Qed.

Lemma run_app : forall es1 es2 s, run s (es1 ++ es2)
  = let '(s1, h1) := run s es1 in let '(s2, h2) := run s1 es2 in (s2, h1 ++ h2).
Proof.
  induction es1 as [|e es1 IH]; intros es2 s; cbn [app Configuration.run].
  - now destruct (run s es2).
  - destruct (step s e) as (s1, r). rewrite IH. destruct (run s1 es1) as (s2, h2).
    destruct (run s2 es2) as (s3, h3). reflexivity.
Qed.

(** Always one thread for each component. *)
Lemma threads_step : forall s e s' r, (forall c, running bytes s = Some c -> one_thread c) ->
  step s e = (s', r) -> forall c, running bytes s' = Some c -> one_thread c.
Proof.
  intros s e s' r I H c Hc. destruct e as [a read put others|x value engine put| |f];
    cbn [Configuration.step] in H.
  - destruct (running bytes s) as [c0|] eqn:R.
    + injection H as <- <-. apply I. congruence.
    + apply try_new_start in H. destruct H as (H & _).
      destruct H as [_ _ N|c1 toml _ _ T _ [(_ & E)|(_ & E)]]; congruence.
  - apply update_change in H. destruct H as [_ ->|c0 _ R _ _ ->|c0 toml _ R _ _ _ ->];
      cbn [running] in Hc.
    + now apply I.
    + injection Hc as <-. now apply set_threads, I.
    + injection Hc as <-. now apply set_threads, I.
  - injection H as <- <-. discriminate.
  - injection H as <- <-. cbn [running] in Hc. now apply I.
Qed.
Lemma threads_run : forall es s s' h, (forall c, running bytes s = Some c -> one_thread c) ->
  run s es = (s', h) -> forall c, running bytes s' = Some c -> one_thread c.
Proof.
  induction es as [|e es IH]; intros s s' h I H; cbn [Configuration.run] in H.
  - injection H as <- <-. exact I.
  - destruct (step s e) as (s1, r) eqn:E. destruct (run s1 es) as (s2, h2) eqn:R.
    injection H as <- _. apply (IH s1 s2 h2); [|exact R]. exact (threads_step _ _ _ _ I E).
Qed.

(** Everything that is accepted is used and saved. *)
Hypothesis F : faithful to_toml from_toml.

Definition tracks (s : state bytes) (values : parameter -> option Z) : Prop :=
  (forall c, running bytes s = Some c -> forall p, get p c = values p)
  /\ match file bytes s with
     | Some f => exists c, from_toml f = Ok c /\ forall p, get p c = values p
     | None => forall p, get p default = values p
     end.

Lemma written_read : forall c toml, to_toml c = Ok toml -> from_toml toml = Ok c.
Proof. intros c toml H. destruct (F c) as (t & H1 & H2). congruence. Qed.

Lemma tracks_step : forall s e s' r values, works e -> tracks s values -> step s e = (s', r) ->
  tracks s' (fun p => replaced p (values p) (e, r)).
Proof.
  intros s e s' r values W (T1 & T2) H.
  destruct e as [a read put others|x value engine put| |f]; cbn [works] in W;
    cbn [Configuration.step] in H; [| | |contradiction].
  - destruct (running bytes s) as [c0|] eqn:R.
    + injection H as <- <-. cbn [replaced]. split; [|exact T2].
      intros c Hc. apply T1. congruence.
    + apply try_new_start in H. destruct H as (H & K).
      destruct H as [-> N1 N2|c toml L Tt _ N1 [(-> & N2)|(-> & N2)]].
      * cbn [replaced]. split; [intros c Hc; congruence|]. now rewrite N1.
      * assert (C : forall p, get p c = values p).
        { destruct (file bytes s) as [f|].
          - destruct T2 as (c' & E & T2). assert (c = c') as -> by congruence. exact T2.
          - injection L as <-. exact T2. }
        assert (D : forall p, get p (update_from_args a c)
                    = replaced p (values p) (Started a read put others : event bytes, Ok tt)).
        { intros p. rewrite flags_replace, C. reflexivity. }
        split; [intros c' Hc; assert (c' = update_from_args a c) as -> by congruence; exact D|].
        rewrite N1. exists (update_from_args a c). split; [now apply written_read|exact D].
      * cbn [replaced]. split; [intros c' Hc; congruence|].
        rewrite (K (proj2 W) eq_refl). exact T2.
  - apply update_change in H.
    destruct H as [-> ->|c -> R O X ->|c toml -> R O Tt P ->].
    + cbn [replaced]. now split.
    + destruct (F (set x value c)) as (t & E & _). destruct (X W t E).
    + assert (D : forall p, get p (set x value c)
                    = replaced p (values p) (Updated x value engine put : event bytes, Ok tt)).
      { intros p. rewrite (set_replaces p x value engine put c O). now rewrite (T1 c R p). }
      split; cbn [running file].
      * intros c' Hc. injection Hc as <-. exact D.
      * exists (set x value c). split; [now apply written_read|exact D].
  - injection H as <- <-. cbn [replaced]. split; [discriminate|exact T2].
Qed.

Lemma tracks_run : forall es s s' h values, Forall works es -> tracks s values ->
  run s es = (s', h) -> tracks s' (fun p => fold_left (replaced p) h (values p)).
Proof.
  induction es as [|e es IH]; intros s s' h values W T H; cbn [Configuration.run] in H.
  - injection H as <- <-. exact T.
  - destruct (step s e) as (s1, r) eqn:E. destruct (run s1 es) as (s2, h2) eqn:R.
    injection H as <- <-. inversion W as [|? ? W1 W2]; subst.
    exact (IH s1 s2 h2 _ W2 (tracks_step _ _ _ _ _ W1 T E) R).
Qed.

Lemma latest_used : forall es s h c, Forall works es -> run (new_folder bytes) es = (s, h) ->
  running bytes s = Some c -> forall p, get p c = latest p h.
Proof.
  intros es s h c W H R p.
  assert (T : tracks (new_folder bytes) (fun p => get p default)).
  { split; [discriminate|]. intros q. reflexivity. }
  exact (proj1 (tracks_run es _ _ _ _ W T H) c R p).
Qed.
End Server.

Section Durable.
Variable bytes : Type.
Variable to_toml : configuration -> outcome bytes.
Variable from_toml : bytes -> outcome configuration.
Hypothesis F : faithful_if_written to_toml from_toml.
Notation run := (run bytes to_toml from_toml).
Notation step := (step bytes to_toml from_toml).

Lemma nothing_step : forall s e s' r, step s e = (s', r) -> changes_nothing (e, r) ->
  file bytes s' = file bytes s.
Proof.
  intros s e s' r H N. destruct e as [a read put others|x value engine put| |f];
    cbn [changes_nothing] in N; cbn [Configuration.step] in H; [| | |contradiction].
  - destruct N as (-> & ->). destruct (running bytes s) as [c0|].
    + now injection H as <-.
    + apply try_new_start in H. destruct H as (_ & K). now apply K.
  - subst r. apply update_change in H.
    destruct H as [_ ->|c _ _ _ _ ->|c toml E _ _ _ _ _]; [reflexivity|reflexivity|discriminate].
  - now injection H as <- <-.
Qed.
Lemma nothing_run : forall es s s' h, run s es = (s', h) -> Forall changes_nothing h ->
  file bytes s' = file bytes s.
Proof.
  induction es as [|e es IH]; intros s s' h H N; cbn [Configuration.run] in H.
  - now injection H as <- <-.
  - destruct (step s e) as (s1, r) eqn:E. destruct (run s1 es) as (s2, h2) eqn:R.
    injection H as <- <-. inversion N as [|? ? N1 N2]; subst.
    rewrite (IH _ _ _ R N2). exact (nothing_step _ _ _ _ E N1).
Qed.

Lemma accepted_durable : forall s x value engine put s1 es s2 h a read put' others s3,
  step s (Updated x value engine put) = (s1, Ok tt) ->
  run s1 es = (s2, h) -> Forall changes_nothing h ->
  step s2 (Started a read put' others) = (s3, Ok tt) ->
  exists c1 c3, running bytes s1 = Some c1 /\ running bytes s3 = Some c3
    /\ get (Setting x) c1 = value
    /\ forall p, get p c3 = match given p a with Some v => Some v | None => get p c1 end.
Proof.
  intros s x value engine put s1 es s2 h a read put' others s3 H1 H2 N H3.
  cbn [Configuration.step] in H1. apply update_change in H1.
  destruct H1 as [E _|c E _ _ _ _|c toml _ R O Tt P ->]; try discriminate.
  pose proof (nothing_run _ _ _ _ H2 N) as Hf. cbn [file] in Hf.
  cbn [Configuration.step] in H3. destruct (running bytes s2) as [c0|] eqn:R2; [discriminate|].
  apply try_new_start in H3. destruct H3 as (H3 & _).
  destruct H3 as [E _ _|c3 toml3 L _ _ _ [(_ & R3)|(E & _)]]; try discriminate.
  rewrite Hf in L. assert (c3 = set x value c) as -> by (apply F in Tt; congruence).
  exists (set x value c), (update_from_args a (set x value c)).
  split; [reflexivity|]. split; [exact R3|]. split.
  - rewrite (set_replaces bytes (Setting x) x value engine put c O). now destruct x.
  - intros p. apply flags_replace.
Qed.

(** A refused update changes nothing. *)
Lemma refused_nothing : forall s x value engine s' toml_of,
  (forall c, to_toml c = Ok (toml_of c)) ->
  step s (Updated x value engine true) = (s', Err) -> s' = s.
Proof.
  intros s x value engine s' toml_of T H. cbn [Configuration.step] in H. apply update_change in H.
  destruct H as [_ ->|c _ _ _ X ->|c toml E _ _ _ _ _]; [reflexivity| |discriminate].
  destruct (X eq_refl _ (T _)).
Qed.
End Durable.

(** No flag disables transfers by size. *)
Lemma batch_size_set : forall bytes to_toml from_toml es s h c,
  faithful_if_written to_toml from_toml ->
  Forall (fun e => match e with Started _ _ _ _ | Stopped => True | _ => False end) es ->
  run bytes to_toml from_toml (new_folder bytes) es = (s, h) ->
  running bytes s = Some c -> transfer_batch_size c <> None.
Proof.
  intros bytes to_toml from_toml es s h c F.
  set (good := fun s : state bytes =>
    (forall c, running bytes s = Some c -> transfer_batch_size c <> None)
    /\ forall c f, file bytes s = Some f -> from_toml f = Ok c -> transfer_batch_size c <> None).
  assert (G : good (new_folder bytes)) by (split; discriminate).
  revert G. generalize (new_folder bytes). revert s h c.
  induction es as [|e es IH]; intros s h c s0 G W H R; cbn [Configuration.run] in H.
  - injection H as <- <-. now apply G.
  - destruct (step bytes to_toml from_toml s0 e) as (s1, r) eqn:E.
    destruct (run bytes to_toml from_toml s1 es) as (s2, h2) eqn:R2. injection H as <- <-.
    inversion W as [|? ? W1 W2]; subst. refine (IH s2 h2 c s1 _ W2 R2 R).
    destruct e as [a read put others| | |]; try contradiction; cbn [Configuration.step] in E.
    + destruct (running bytes s0) as [c0|] eqn:R0.
      * injection E as <- <-. exact G.
      * apply try_new_start in E. destruct E as (E & _).
        destruct E as [_ N1 N2|c1 toml L Tt _ N1 N2].
        -- split; [congruence|]. rewrite N1. apply G.
        -- assert (D : transfer_batch_size (update_from_args a c1) <> None).
           { assert (D1 : transfer_batch_size c1 <> None).
             { destruct (file bytes s0) as [f|] eqn:Ef.
               - exact (proj2 G c1 f Ef L).
               - injection L as <-. discriminate. }
             cbn [update_from_args transfer_batch_size]. unfold or_keep_option.
             destruct (arg_transfer_batch_size a); [discriminate|exact D1]. }
           split.
           ++ intros c2 Hc. destruct N2 as [(_ & N2)|(_ & N2)]; congruence.
           ++ intros c2 f Hf Hc. apply F in Tt. congruence.
    + injection E as <- <-. split; [discriminate|]. exact (proj2 G).
Qed.

(** Examples, with configurations instead of bytes. *)
Definition as_written (c : configuration) : outcome configuration := Ok c.
Lemma as_written_faithful : faithful as_written as_written.
Proof. intros c. now exists c. Qed.
Lemma as_written_if : faithful_if_written as_written as_written.
Proof. intros c t H. unfold as_written in *. congruence. Qed.
Definition no_flags : args := Args None None None None None None None.
