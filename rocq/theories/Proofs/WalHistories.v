(** What the refinement says about histories of a write-ahead log. *)
From Coq Require Import ZArith List Bool Lia Permutation Sorted.
From Verif Require Import Model.Base Model.Wal Spec.WalSpec Proofs.WalFiles Proofs.WalProofs.
Import ListNotations.
Open Scope Z_scope.

Section WalHistories.
Context {B : Type} (memory_size : B -> Z).
Variable listing : list (name * file B) -> list (name * file B).
Hypothesis Hlists : lists listing.

Lemma count_cons : forall e (h : list (event B)), count (e :: h) = Z.of_nat (length (written e)) + count h.
Proof. intros e h. unfold count, all_written. cbn [flat_map]. rewrite app_length. lia. Qed.
Lemma count_nonneg : forall h : list (event B), 0 <= count h.
Proof. intros h. unfold count. lia. Qed.

Lemma explains_next : forall (l l' : ledger B) e, explains l e l' ->
  l_next l' = l_next l + Z.of_nat (length (written e)).
Proof. intros l l' e H. destruct H; cbn [l_next written length]; lia. Qed.

Lemma explained_next : forall (l l' : ledger B) h, explained l h l' -> l_next l' = l_next l + count h.
Proof.
  intros l l' h H. induction H as [l|l e l' h l'' He H IH]; [unfold count; cbn; lia|].
  rewrite count_cons. apply explains_next in He. lia.
Qed.

Lemma explained_app : forall h1 (l : ledger B) h2 l', explained l (h1 ++ h2) l' ->
  exists m, explained l h1 m /\ explained m h2 l'.
Proof.
  induction h1 as [|e h1 IH]; intros l h2 l' H; [exists l; split; [constructor|exact H]|].
  cbn [app] in H. inversion H as [|? ? m ? ? He H']; subst. apply IH in H'. destruct H' as (m' & H1 & H2).
  exists m'. split; [econstructor; eauto|exact H2].
Qed.

Lemma sound_app : forall h1 s next h2 s', sound_run memory_size listing s next (h1 ++ h2) s' ->
  exists m, sound_run memory_size listing s next h1 m /\ sound_run memory_size listing m (next + count h1) h2 s'.
Proof.
  induction h1 as [|e h1 IH]; intros s next h2 s' H.
  - exists s. split; [constructor|]. unfold count. cbn. now rewrite Z.add_0_r.
  - cbn [app] in H. inversion H as [|? ? ? m ? ? Ha Hs H']; subst. apply IH in H'. destruct H' as (m' & H1 & H2).
    exists m'. split; [econstructor; eauto|]. rewrite count_cons, Z.add_assoc. exact H2.
Qed.

Lemma sound_related : forall h s, sound_run memory_size listing initial 0 h s ->
  exists l, explained empty_ledger h l /\ related s l /\ l_next l = count h.
Proof.
  intros h s H. destruct (run_related memory_size listing _ _ _ _ Hlists H empty_ledger) as (l & He & Hr).
  - apply related_initial.
  - reflexivity.
  - exists l. split; [exact He|]. split; [exact Hr|]. apply explained_next in He. cbn [empty_ledger l_next] in He. lia.
Qed.

(** ** Ids *)
Lemma appended_ids : forall (l l' : ledger B) h, explained l h l' ->
  StronglySorted Z.lt (map fst (appended h))
  /\ Forall (fun p => l_next l <= fst p < l_next l') (appended h).
Proof.
  intros l l' h H. induction H as [l|l e l' h l'' He H [IH1 IH2]]; [split; constructor|].
  pose proof (explains_next _ _ _ He) as En. pose proof (explained_next _ _ _ H) as En'.
  pose proof (count_nonneg h) as Hc.
  assert (Hrest : Forall (fun p : Z * B => l_next l <= fst p < l_next l'') (appended h)).
  { eapply Forall_impl; [|exact IH2]. cbv beta. intros; lia. }
  destruct He; try (split; [exact IH1|exact Hrest]).
  unfold appended. cbn [flat_map app]. fold (appended h). cbn [map fst]. cbn [l_next] in *. split.
  - constructor; [exact IH1|]. apply Forall_map. eapply Forall_impl; [|exact IH2]. cbv beta. intros; lia.
  - constructor; [cbn [fst]; cbn [written length] in *; lia|exact Hrest].
Qed.

Lemma run_ids : forall h s, sound_run memory_size listing initial 0 h s ->
  StronglySorted Z.lt (map fst (appended h)) /\ Forall (fun p => 0 <= fst p < count h) (appended h).
Proof.
  intros h s H. destruct (sound_related h s H) as (l & He & _ & Hn).
  destruct (appended_ids _ _ _ He) as [H1 H2]. split; [exact H1|].
  rewrite <- Hn. exact H2.
Qed.

Lemma run_fresh : forall h1 b i h2 s, sound_run memory_size listing initial 0 (h1 ++ Appended b i :: h2) s ->
  ~ In i (persisted h1).
Proof.
  intros h1 b i h2 s H. apply sound_app in H. destruct H as (m & H1 & H2).
  inversion H2 as [|? ? ? s1 ? ? Ha Hs H']; subst.
  destruct (sound_related _ _ H1) as (l & He & Hr & Hn).
  rewrite Z.add_0_l, <- Hn in Ha.
  destruct (step_related memory_size listing m l _ s1 Hlists Hr Ha Hs) as (l' & He' & _ & _).
  assert (Hi : i = l_next l) by (inversion He'; subst; reflexivity).
  (* Committed ids are known to be smaller, marked ids are committed. *)
  cut (forall id, In id (persisted h1) -> id < count h1).
  { intros Hc Hin. apply Hc in Hin. lia. }
  clear - H1 Hlists. intros id Hin. unfold persisted in Hin. apply in_flat_map in Hin.
  destruct Hin as (e & He & Hid). apply in_split in He. destruct He as (ha & hb & ->).
  apply sound_app in H1. destruct H1 as (m1 & Ha & Hb). inversion Hb as [|? ? ? s1 ? ? Hal Hs H']; subst.
  assert (Hc : count ha <= count (ha ++ e :: hb)).
  { unfold count, all_written. rewrite flat_map_app, app_length. lia. }
  destruct (sound_related _ _ Ha) as (l & _ & Hr & Hn).
  destruct e; try destruct Hid; cbn [allowed] in Hal.
  - specialize (Hal id Hid). lia.
  - destruct Hr as (base & bs & _ & _ & Hcm & Hlt & _). apply Hal in Hid. rewrite <- Hcm in Hid.
    apply Hlt in Hid. lia.
Qed.

(** ** Batches in the log *)
Lemma explains_keeps : forall (l l' : ledger B) e i b, explains l e l' -> ~ truncating e ->
  ~ In i (persisted [e]) -> In (i, b) (l_log l) /\ ~ In i (l_commits l) /\ ~ In i (l_known l) ->
  In (i, b) (l_log l') /\ ~ In i (l_commits l') /\ ~ In i (l_known l').
Proof.
  intros l l' e i b He Ht Hp (H1 & H2 & H3). unfold persisted in Hp.
  destruct He; cbn [flat_map truncating l_log l_commits l_known] in *; rewrite ?app_nil_r in Hp; auto.
  - split; [apply in_or_app; now left|]. auto.
  - split; [exact H1|]. split; [|exact H3]. intros H. apply in_app_or in H. tauto.
  - split; [exact H1|]. split; [exact H2|]. intros H. apply in_app_or in H. tauto.
  - destruct Ht. exact I.
  - split; [|auto]. destruct (written (Crashed a m)); subst; [exact H1|apply in_or_app; now left].
  - destruct Ht. exact I.
Qed.

Lemma explained_keeps : forall (l l' : ledger B) h i b, explained l h l' -> Forall (fun e => ~ truncating e) h ->
  ~ In i (persisted h) -> In (i, b) (l_log l) /\ ~ In i (l_commits l) /\ ~ In i (l_known l) ->
  In (i, b) (l_log l') /\ ~ In i (l_commits l') /\ ~ In i (l_known l').
Proof.
  intros l l' h i b H. induction H as [l|l e l' h l'' He H IH]; intros Ht Hp Hl; [exact Hl|].
  apply Forall_cons_iff in Ht. destruct Ht as [Ht Ht'].
  assert (Hp1 : ~ In i (persisted [e]) /\ ~ In i (persisted h)).
  { unfold persisted in *. cbn [flat_map] in *. rewrite app_nil_r. rewrite in_app_iff in Hp. tauto. }
  apply IH; [exact Ht'|tauto|]. apply (explains_keeps l l' e); tauto.
Qed.

Lemma explained_trans : forall (l m l' : ledger B) h1 h2, explained l h1 m -> explained m h2 l' ->
  explained l (h1 ++ h2) l'.
Proof.
  intros l m l' h1 h2 H. induction H as [l|l e m h m' He H IH]; intros H2; [exact H2|].
  cbn [app]. econstructor; eauto.
Qed.

(** The ledgers before and after an event, and after what follows. *)
Lemma sound_split : forall h1 e h2 s, sound_run memory_size listing initial 0 (h1 ++ e :: h2) s ->
  exists s0 s1 l0 l1 l, explained empty_ledger h1 l0 /\ related s0 l0 /\ l_next l0 = count h1
    /\ allowed s0 (count h1) e /\ step memory_size listing s0 e s1
    /\ explains l0 e l1 /\ related s1 l1
    /\ sound_run memory_size listing s1 (l_next l1) h2 s /\ explained l1 h2 l /\ related s l.
Proof.
  intros h1 e h2 s H. apply sound_app in H. destruct H as (m & H1 & H2).
  inversion H2 as [|? ? ? s1 ? ? Ha Hs H']; subst. rewrite Z.add_0_l in *.
  destruct (sound_related _ _ H1) as (l0 & He0 & Hr0 & Hn0).
  pose proof Ha as Ha'. rewrite <- Hn0 in Ha'.
  destruct (step_related memory_size listing m l0 _ s1 Hlists Hr0 Ha' Hs) as (l1 & He1 & Hr1 & Hn1).
  rewrite Hn0 in Hn1. rewrite <- Hn1 in H'.
  destruct (run_related memory_size listing _ _ _ _ Hlists H' l1 Hr1 eq_refl) as (l2 & He2 & Hr2).
  exists m, s1, l0, l1, l2. auto 12.
Qed.

Lemma related_known : forall s (l : ledger B) w, related s l -> snd s = Some w -> incl (l_known l) (l_commits l).
Proof.
  intros s l w (base & bs & _ & _ & Hc & _ & H) Hw. rewrite Hw in H. exact (ru_known _ _ _ _ _ _ H).
Qed.

Lemma appended_kept : forall h1 b i h2 s,
  sound_run memory_size listing initial 0 (h1 ++ Appended b i :: h2) s ->
  Forall (fun e => ~ truncating e) h2 -> ~ In i (persisted h2) ->
  exists l, related s l /\ In (i, b) (l_log l) /\ ~ In i (l_commits l) /\ ~ In i (l_known l).
Proof.
  intros h1 b i h2 s H Ht Hp.
  destruct (sound_split _ _ _ _ H) as (s0 & s1 & l0 & l1 & l & _ & Hr0 & Hn0 & _ & Hs & He1 & _ & _ & He & Hr).
  exists l. split; [exact Hr|]. apply (explained_keeps l1 l h2); auto.
  assert (Hw : exists w, snd s0 = Some w) by (inversion Hs; subst; eexists; reflexivity).
  destruct Hw as [w Hw]. pose proof (related_known _ _ _ Hr0 Hw) as Hk.
  destruct Hr0 as (base & bs & _ & _ & _ & Hlt & _).
  inversion He1; subst. cbn [l_log l_commits l_known l_next] in *.
  split; [apply in_or_app; right; now left|].
  split; [intros Hi; apply Hlt in Hi; lia|]. intros Hi. apply Hk, Hlt in Hi. lia.
Qed.

Lemma filter_not_in : forall known (log : list (Z * B)) p, In p (filter (not_in known) log)
  <-> In p log /\ ~ In (fst p) known.
Proof.
  intros known log p. rewrite filter_In. unfold not_in.
  destruct (in_dec Z.eq_dec (fst p) known); cbn [negb]; intuition congruence.
Qed.

(** *** An appended batch is returned *)
Lemma appended_replayed : forall h1 b i h2 out s,
  sound_run memory_size listing initial 0 (h1 ++ Appended b i :: h2 ++ [Replayed out]) s ->
  Forall (fun e => ~ truncating e) h2 -> ~ In i (persisted h2) -> In (i, b) out.
Proof.
  intros h1 b i h2 out s H Ht Hp.
  replace (h1 ++ Appended b i :: h2 ++ [Replayed out]) with ((h1 ++ Appended b i :: h2) ++ [Replayed out]) in H
    by (rewrite <- app_assoc; reflexivity).
  apply sound_app in H. destruct H as (m & H1 & H2).
  destruct (appended_kept _ _ _ _ _ H1 Ht Hp) as (l & Hr & Hin & _ & Hk).
  inversion H2 as [|? ? ? s1 ? ? Ha Hs _]; subst.
  destruct (step_related memory_size listing m l (Replayed out) s1 Hlists Hr I Hs) as (l1 & He1 & _ & _).
  inversion He1; subst. cbn [l_log l_known] in *. apply filter_not_in. now split.
Qed.

Lemma replayed_exactly : forall h out s,
  sound_run memory_size listing initial 0 (h ++ [Replayed out]) s ->
  exists l, explained empty_ledger h l /\ out = filter (not_in (l_known l)) (l_log l).
Proof.
  intros h out s H. apply sound_app in H. destruct H as (m & H1 & H2).
  destruct (sound_related _ _ H1) as (l & He & Hr & _).
  inversion H2 as [|? ? ? s1 ? ? Ha Hs _]; subst.
  destruct (step_related memory_size listing m l (Replayed out) s1 Hlists Hr I Hs) as (l1 & He1 & _ & _).
  exists l. split; [exact He|]. inversion He1; subst. reflexivity.
Qed.

(** *** Files *)
Lemma number_nth_inv : forall (bs : list B) i id b, In (id, b) (number i bs) ->
  nth_error bs (Z.to_nat (id - i)) = Some b /\ i <= id.
Proof.
  induction bs as [|b' bs IH]; intros i id b H; [destruct H|]. cbn [number] in H. destruct H as [H|H].
  - assert (id = i /\ b' = b) as [-> ->] by (split; congruence). rewrite Z.sub_diag. split; [reflexivity|lia].
  - apply IH in H. destruct H as [H Hi]. split; [|lia].
    replace (Z.to_nat (id - i)) with (S (Z.to_nat (id - (i + 1)))) by lia. exact H.
Qed.

Lemma nth_error_firstn : forall (A : Type) n (l : list A) k, (k < n)%nat ->
  nth_error (firstn n l) k = nth_error l k.
Proof.
  induction n as [|n IH]; intros l k H; [lia|]. destruct l as [|a l]; [reflexivity|].
  destruct k as [|k]; [reflexivity|]. cbn [firstn nth_error]. apply IH. lia.
Qed.
Lemma nth_error_skipn : forall (A : Type) n (l : list A) k, nth_error (skipn n l) k = nth_error l (n + k).
Proof.
  induction n as [|n IH]; intros l k; [reflexivity|]. destruct l as [|a l]; [now destruct k|].
  cbn [skipn Nat.add nth_error]. apply IH.
Qed.

Lemma between_nth : forall base (bs : list B) a c k, base <= a -> a + Z.of_nat k < c ->
  nth_error (between base bs a c) k = nth_error bs (Z.to_nat (a + Z.of_nat k - base)).
Proof.
  intros base bs a c k Ha Hk. unfold between. rewrite nth_error_firstn by lia.
  rewrite nth_error_skipn. f_equal. lia.
Qed.

Lemma disk_held : forall files closed active base (bs : list B) ok id b,
  disk_inv files closed active base bs ok -> held files id b -> In (id, b) (number base bs).
Proof.
  intros files closed active base bs ok id b D (n & f & k & Hin & Hid & Hk).
  pose proof (di_nodup _ _ _ _ _ _ D) as Hnd. apply lookup_in in Hin; [|exact Hnd].
  assert (Hb : exists a c, f_batches f = between base bs a c /\ base <= a /\ start_id n = a
                           /\ c <= base + Z.of_nat (length bs) /\ a <= c).
  { destruct n as [s|s e]; cbn [start_id].
    - rewrite (di_active _ _ _ _ _ _ D s) in Hin. pose proof (di_start _ _ _ _ _ _ D) as Hs.
      destruct active as [[[s0 h] t]|]; [|discriminate Hin]. destruct (s =? s0) eqn:E; [|discriminate Hin].
      apply Z.eqb_eq in E. subst s0. assert (f = File h (between base bs s (base + Z.of_nat (length bs))) t)
        by congruence. subst f. cbn [start_of] in Hs. cbn [f_batches]. exists s, (base + Z.of_nat (length bs)).
      split; [reflexivity|]. lia.
    - destruct (di_closed _ _ _ _ _ _ D s e f Hin) as (Hc & _ & Hb).
      pose proof (di_ranges _ _ _ _ _ _ D) as Hr. rewrite Forall_forall in Hr. specialize (Hr _ Hc).
      cbn [fst snd] in Hr. pose proof (di_start _ _ _ _ _ _ D). exists s, (e + 1). split; [exact Hb|]. lia. }
  destruct Hb as (a & c & Hb & Ha & Hs & Hc & Hac). rewrite Hb in Hk. rewrite Hs in Hid.
  assert (Hlen : (k < length (between base bs a c))%nat) by (apply nth_error_Some; congruence).
  pose proof (between_length base bs a c) as Hl. rewrite between_nth in Hk by lia.
  replace id with (base + Z.of_nat (Z.to_nat (a + Z.of_nat k - base))) by lia. now apply number_nth.
Qed.

Lemma disk_holds : forall files closed active base (bs : list B) (ok : Z -> Prop) id b,
  disk_inv files closed active base bs ok -> In (id, b) (number base bs) -> ~ ok id -> held files id b.
Proof.
  intros files closed active base bs ok id b D Hin Hok.
  pose proof (di_nodup _ _ _ _ _ _ D) as Hnd. pose proof (number_in _ _ _ Hin) as Hid. cbn [fst] in Hid.
  apply number_nth_inv in Hin. destruct Hin as [Hin _]. pose proof (di_start _ _ _ _ _ _ D) as Hst.
  destruct (Z_lt_le_dec id (start_of active (base + Z.of_nat (length bs)))) as [Hlt|Hge].
  - destruct (di_cover _ _ _ _ _ _ D id) as [([s e] & Hc & Hr)|H]; [lia| |contradiction].
    cbn [fst snd] in Hr. destruct (di_found _ _ _ _ _ _ D s e Hc) as [f Hf].
    destruct (di_closed _ _ _ _ _ _ D s e f Hf) as (_ & _ & Hb).
    pose proof (di_ranges _ _ _ _ _ _ D) as Hrg. rewrite Forall_forall in Hrg. specialize (Hrg _ Hc).
    cbn [fst snd] in Hrg. exists (ClosedFile s e), f, (Z.to_nat (id - s)).
    split; [now apply lookup_in|]. cbn [start_id]. split; [lia|].
    rewrite Hb, between_nth by lia. rewrite <- Hin. f_equal. lia.
  - destruct active as [[[s h] t]|]; cbn [start_of] in *; [|lia].
    exists (ActiveFile s), (File h (between base bs s (base + Z.of_nat (length bs))) t), (Z.to_nat (id - s)).
    split; [apply lookup_in; [exact Hnd|]; exact (active_lookup _ _ _ _ _ _ _ _ D)|].
    cbn [start_id f_batches]. split; [lia|]. rewrite between_nth by lia. rewrite <- Hin. f_equal. lia.
Qed.

Lemma related_disk : forall s (l : ledger B), related s l ->
  exists base bs closed active, l_log l = number base bs /\ l_commits l = st_commits (fst s)
    /\ disk_inv (st_files (fst s)) closed active base bs (fun id => In id (st_commits (fst s))).
Proof.
  intros s l (base & bs & Hlog & _ & Hc & _ & H). exists base, bs. destruct (snd s) as [w|].
  - exists (w_closed w), (Some (w_start w, true, false)). split; [exact Hlog|]. split; [exact Hc|].
    apply (disk_weaken _ _ _ _ _ (fun id => In id (l_known l))); [|exact (ru_disk _ _ _ _ _ _ H)].
    intros id Hid. rewrite <- Hc. now apply (ru_known _ _ _ _ _ _ H).
  - destruct H as (closed & active & D). exists closed, active. rewrite Hc in D. auto.
Qed.

Lemma appended_held : forall h1 b i h2 s,
  sound_run memory_size listing initial 0 (h1 ++ Appended b i :: h2) s ->
  Forall (fun e => ~ truncating e) h2 -> ~ In i (persisted h2) -> held (st_files (fst s)) i b.
Proof.
  intros h1 b i h2 s H Ht Hp. destruct (appended_kept _ _ _ _ _ H Ht Hp) as (l & Hr & Hin & Hc & _).
  destruct (related_disk _ _ Hr) as (base & bs & closed & active & Hlog & Hcm & D).
  apply (disk_holds _ _ _ _ _ _ _ _ D); [now rewrite <- Hlog|]. now rewrite <- Hcm.
Qed.

Lemma explains_log : forall (l l' : ledger B) e p, explains l e l' -> ~ truncating e ->
  In p (l_log l) -> In p (l_log l').
Proof.
  intros l l' e p He Ht Hp. destruct He; cbn [l_log truncating] in *; auto.
  - apply in_or_app. now left.
  - destruct Ht. exact I.
  - destruct (written (Crashed a m)); subst; [exact Hp|apply in_or_app; now left].
  - destruct Ht. exact I.
Qed.

Lemma step_keeps_files : forall h s e s' id b, sound_run memory_size listing initial 0 h s ->
  allowed s (count h) e -> step memory_size listing s e s' -> ~ truncating e ->
  held (st_files (fst s)) id b -> ~ In id (st_commits (fst s')) -> held (st_files (fst s')) id b.
Proof.
  intros h s e s' id b H Ha Hs Ht Hh Hc. destruct (sound_related _ _ H) as (l & _ & Hr & Hn).
  rewrite <- Hn in Ha. destruct (step_related memory_size listing s l e s' Hlists Hr Ha Hs) as (l' & He & Hr' & _).
  destruct (related_disk _ _ Hr) as (base & bs & closed & active & Hlog & _ & D).
  destruct (related_disk _ _ Hr') as (base' & bs' & closed' & active' & Hlog' & _ & D').
  apply (disk_holds _ _ _ _ _ _ _ _ D'); [|exact Hc]. rewrite <- Hlog'.
  apply (explains_log l l' e); auto. rewrite Hlog. now apply (disk_held _ _ _ _ _ _ _ _ D).
Qed.

(** *** Deleted files *)
Lemma apply_removed : forall ops (files files' : list (name * file B)) n, apply_ops files ops = Some files' ->
  lookup files n <> None -> lookup files' n = None -> In (Remove n) ops \/ exists n', In (Rename n n') ops.
Proof.
  induction ops as [|op ops IH]; intros files files' n E Hin Hout.
  - injection E as <-. contradiction.
  - cbn [apply_ops] in E. destruct (apply_op files op) as [files1|] eqn:E1; [|discriminate E].
    destruct (lookup files1 n) as [f1|] eqn:L1.
    + destruct (IH files1 files' n E) as [H|[n' H]]; [congruence|exact Hout| |];
        [left|right; exists n']; now right.
    + clear IH E Hout. destruct op as [m|m|m b|m|m m'|m]; cbn [apply_op] in E1;
        try (destruct (lookup files m) as [g|] eqn:Lm; [|discriminate E1]);
        assert (Ef := f_equal (fun o => match o with Some x => lookup x n | None => None end) E1);
        cbv beta iota in Ef; rewrite L1 in Ef; rewrite ?lookup_with, ?lookup_without in Ef.
      * destruct (name_eqb m n); congruence.
      * destruct (name_eqb m n); congruence.
      * destruct (name_eqb m n); congruence.
      * congruence.
      * destruct (name_eqb m' n); [discriminate Ef|]. destruct (name_eqb m n) eqn:En; [|congruence].
        apply name_eqb_eq in En. subst m. right. exists m'. now left.
      * destruct (name_eqb m n) eqn:En; [|congruence]. apply name_eqb_eq in En. subst m. left. now left.
Qed.

Definition spares (ops : list (fs_op B)) (ok : Z -> Prop) : Prop :=
  forall a e, (In (Remove (ClosedFile a e)) ops -> forall id, a <= id <= e -> ok id)
              /\ forall n, ~ In (Rename (ClosedFile a e) n) ops.

Lemma spares_removed : forall ops k (files files' : list (name * file B)) ok a e, spares ops ok ->
  apply_ops files (firstn k ops) = Some files' ->
  lookup files (ClosedFile a e) <> None -> lookup files' (ClosedFile a e) = None ->
  forall id, a <= id <= e -> ok id.
Proof.
  intros ops k files files' ok a e Hs E Hin Hout. destruct (Hs a e) as [H1 H2].
  destruct (apply_removed _ _ _ _ E Hin Hout) as [H|[n' H]]; apply firstn_incl in H.
  - now apply H1.
  - destruct (H2 _ H).
Qed.

Lemma spares_app : forall ops ops' ok, spares ops ok -> spares ops' ok -> spares (ops ++ ops') ok.
Proof.
  intros ops ops' ok H H' a e. destruct (H a e) as [H1 H2], (H' a e) as [H1' H2']. split.
  - intros Hin. apply in_app_or in Hin. destruct Hin; auto.
  - intros n Hin. apply in_app_or in Hin. destruct Hin as [Hin|Hin]; [apply (H2 n Hin)|apply (H2' n Hin)].
Qed.

Lemma spares_mark : forall (w : wal) ids (ok : Z -> Prop), (forall id, In id (w_persisted w ++ ids) -> ok id) ->
  spares (fst (mark (B := B) w ids)) ok.
Proof.
  intros w ids ok Hok a e. unfold mark. cbn [fst]. split.
  - intros Hin id Hid. apply in_map_iff in Hin. destruct Hin as ([a' e'] & E & Hin).
    cbn [fst snd] in E. assert (a' = a /\ e' = e) as [-> ->] by (split; congruence).
    apply filter_In in Hin. destruct Hin as [_ Hin]. rewrite fully_iff in Hin. auto.
  - intros n Hin. apply in_map_iff in Hin. destruct Hin as ([a' e'] & E & _). discriminate E.
Qed.

Lemma spares_append : forall w b ok, spares (fst (fst (append memory_size w b))) ok.
Proof.
  intros w b ok a e. unfold append. destruct (_ <=? _); cbn [fst app new_active In]; split; intros;
    repeat match goal with H : _ \/ _ |- _ => destruct H end; try discriminate; try contradiction.
  all: intros H'; repeat match goal with H : _ \/ _ |- _ => destruct H end; try discriminate; try contradiction.
Qed.

Lemma spares_open : forall st threshold, spares (fst (open_log listing st threshold))
  (fun id => In id (st_commits st)).
Proof.
  intros st threshold. unfold open_log.
  assert (H1 : forall ops leftover, close_leftover (listing (st_files st)) = Ok (ops, leftover) ->
    spares ops (fun id => In id (st_commits st))).
  { unfold close_leftover. intros ops leftover E a e.
    destruct (find _ (listing (st_files st))) as [[[s|s e0] f]|].
    - destruct (read_batches _ _) as [batches| |]; cbn [bind] in E; try discriminate E.
      destruct batches as [|b bs]; assert (Eo := f_equal (fun o => match o with Ok x => fst x | _ => [] end) E);
        cbn [fst] in Eo; subst ops; split; intros; try (intros [H|[]]; discriminate H);
        repeat match goal with H : In _ [_] |- _ => destruct H as [H|[]] end; discriminate.
    - assert (Eo := f_equal (fun o => match o with Ok x => fst x | _ => [] end) E);
        cbn [fst] in Eo; subst ops; split; intros; auto; contradiction.
    - assert (Eo := f_equal (fun o => match o with Ok x => fst x | _ => [] end) E);
        cbn [fst] in Eo; subst ops; split; intros; auto; contradiction. }
  assert (Hnil : spares [] (fun id => In id (st_commits st))) by (intros a e; split; [intros []|intros n []]).
  destruct (close_leftover (listing (st_files st))) as [[ops leftover]| |]; [|exact Hnil|exact Hnil].
  specialize (H1 ops leftover eq_refl).
  destruct (apply_ops (st_files st) ops) as [files|]; [|exact H1].
  destruct (find_closed (listing files)) as [found| |]; [|exact H1|exact H1].
  match goal with |- context [mark ?w ?c] => pose proof (spares_mark w c (fun id => In id (st_commits st))) as Hm;
    destruct (mark w c) as [removes w'] end.
  cbn [fst]. apply spares_app; [exact H1|]. apply spares_app.
  - intros a e. unfold new_active. split; intros; [|intros H'];
      repeat match goal with H : In _ (_ :: _) |- _ => destruct H as [H|H] end; try discriminate; contradiction.
  - apply Hm. intros id Hid. exact Hid.
Qed.

Lemma closed_deleted : forall h s e s' a b f, sound_run memory_size listing initial 0 h s ->
  allowed s (count h) e -> step memory_size listing s e s' -> ~ truncating e ->
  In (ClosedFile a b, f) (st_files (fst s)) -> (forall g, ~ In (ClosedFile a b, g) (st_files (fst s'))) ->
  forall id, a <= id <= b -> In id (st_commits (fst s')).
Proof.
  intros h s e s' a b f H Ha Hs Ht Hin Hout.
  destruct (sound_related _ _ H) as (l & _ & Hr & Hn). rewrite <- Hn in Ha.
  destruct (step_related memory_size listing s l e s' Hlists Hr Ha Hs) as (l' & _ & Hr' & _).
  destruct (related_disk _ _ Hr) as (base & bs & closed & active & _ & _ & D).
  destruct (related_disk _ _ Hr') as (base' & bs' & closed' & active' & _ & _ & D').
  assert (L : lookup (st_files (fst s)) (ClosedFile a b) <> None).
  { apply lookup_in in Hin; [congruence|exact (di_nodup _ _ _ _ _ _ D)]. }
  assert (L' : lookup (st_files (fst s')) (ClosedFile a b) = None).
  { destruct (lookup (st_files (fst s')) (ClosedFile a b)) as [g|] eqn:E; [|reflexivity].
    apply lookup_in in E; [|exact (di_nodup _ _ _ _ _ _ D')]. destruct (Hout _ E). }
  assert (Hp : forall w, snd s = Some w -> forall id, In id (w_persisted w) -> In id (st_commits (fst s))).
  { intros w Hw id Hid. destruct Hr as (b0 & bs0 & _ & _ & Hc & _ & Hrun). rewrite Hw in Hrun.
    rewrite <- Hc. apply (ru_known _ _ _ _ _ _ Hrun). now apply (ru_only _ _ _ _ _ _ Hrun). }
  clear Hin Hout D D' Hr Hr'.
  destruct Hs as [st threshold ops w files Eo Ea|st w b0 ops w' id files Eo Ea|st w ids|
    st w ids ops w' files Eo Ea|st w ops w' files Eo Ea|st w t|st w batches Eu|st w ap m files Ec|
    st w k files Ec|st threshold k files Ec]; cbn [fst snd st_files st_commits truncating] in *;
    try (now destruct Ht); try contradiction.
  - apply (spares_removed ops (length ops) (st_files st) files); auto.
    + replace ops with (fst (open_log listing st threshold)) by (now rewrite Eo). apply spares_open.
    + now rewrite firstn_all.
  - apply (spares_removed ops (length ops) (st_files st) files); auto.
    + replace ops with (fst (fst (append memory_size w b0))) by (now rewrite Eo). apply spares_append.
    + now rewrite firstn_all.
  - apply (spares_removed ops (length ops) (st_files st) files); auto.
    + replace ops with (fst (mark (B := B) w ids)) by (now rewrite Eo). apply spares_mark.
      intros id Hid. apply in_app_or in Hid. destruct Hid as [Hid|Hid]; [now apply (Hp w)|now apply Ha].
    + now rewrite firstn_all.
  - unfold crashed in Ec.
    assert (Hstage : forall files1, match ap with
        | Some (b0, k, torn) => crash_ops (st_files st) (fst (fst (append memory_size w b0))) k torn
        | None => Some (st_files st)
        end = Some files1 -> lookup files1 (ClosedFile a b) <> None).
    { intros files1 E1 L1. destruct ap as [[[b0 k] torn]|]; [|congruence].
      unfold crash_ops in E1.
      destruct (apply_ops (st_files st) (firstn k (fst (fst (append memory_size w b0))))) as [files0|] eqn:E0;
        [|discriminate E1].
      assert (L0 : lookup files0 (ClosedFile a b) = None).
      { assert (E2 := f_equal (fun o => match o with Some x => lookup x (ClosedFile a b) | None => None end) E1).
        cbv beta iota in E2. rewrite L1 in E2. destruct torn; [|exact E2].
        unfold tear in E2. destruct (nth_error _ k) as [[| |n b1| | |]|]; try exact E2.
        destruct (lookup files0 n); [|exact E2]. rewrite lookup_with in E2.
        destruct (name_eqb n (ClosedFile a b)); [discriminate E2|exact E2]. }
      destruct (spares_append w b0 (fun _ => False) a b) as [S1 S2].
      destruct (apply_removed _ _ _ _ E0 L L0) as [Hrm|[n' Hrm]]; apply firstn_incl in Hrm.
      - (* The range of a closed file is not empty. *)
        revert Hrm. unfold append. clear. destruct (_ <=? _); cbn [fst app new_active In]; intros Hrm;
          repeat match goal with H : _ \/ _ |- _ => destruct H end; try discriminate; contradiction.
      - destruct (S2 _ Hrm). }
    destruct (match ap with
        | Some (b0, k, torn) => crash_ops (st_files st) (fst (fst (append memory_size w b0))) k torn
        | None => Some (st_files st)
        end) as [files1|]; [|discriminate Ec]. specialize (Hstage files1 eq_refl).
    destruct m as [[ids k]|]; [|congruence]. unfold crash_ops in Ec.
    destruct (apply_ops files1 (firstn k (fst (mark w ids)))) as [files2|] eqn:E2; [|discriminate Ec].
    assert (files2 = files) by congruence. subst files2.
    apply (spares_removed (fst (mark (B := B) w ids)) k files1 files); auto.
    apply spares_mark. intros id Hid. apply in_app_or in Hid.
    destruct Hid as [Hid|Hid]; [now apply (Hp w)|]. cbn [allowed fst] in Ha. destruct ap; now apply Ha.
  - unfold crash_ops in Ec.
    destruct (apply_ops (st_files st) (firstn k (fst (open_log listing st threshold)))) as [files2|] eqn:E2;
      [|discriminate Ec]. assert (files2 = files) by congruence. subst files2.
    apply (spares_removed (fst (open_log listing st threshold)) k (st_files st) files); auto. apply spares_open.
Qed.

(** Files hold batches under the ids that were returned for them. *)
Lemma appended_in_log : forall (l l' : ledger B) h p, explained l h l' -> In p (l_log l') ->
  In p (l_log l) \/ l_next l <= fst p /\ (In p (appended h)
    \/ exists h1 a m h2, h = h1 ++ Crashed a m :: h2 /\ In (snd p) (written (Crashed a m))
                        /\ fst p = l_next l + count h1).
Proof.
  intros l l' h p H. induction H as [l|l e l' h l'' He H IH]; intros Hp; [now left|].
  pose proof (explains_next _ _ _ He) as En.
  specialize (IH Hp). destruct IH as [IH|[Hle IH]].
  - destruct He as [| | | | | | |? ? ? ? a m log' Hlog'| |]; cbn [l_log l_next] in *; try (left; exact IH).
    + apply in_app_or in IH. destruct IH as [IH|[<-|[]]]; [now left|]. right. split; [cbn [fst]; lia|].
      left. now left.
    + destruct IH.
    + destruct (written (Crashed a m)) as [|b r] eqn:E; subst log'; [left; exact IH|].
      apply in_app_or in IH. destruct IH as [IH|[<-|[]]]; [now left|]. right. split; [cbn [fst]; lia|]. right.
      exists [], a, m, h. split; [reflexivity|]. rewrite E. split; [now left|]. cbn [fst]. unfold count. cbn. lia.
    + left. apply in_or_app. now right.
  - right. split; [lia|]. destruct IH as [IH|(h1 & a & m & h2 & -> & Hw & Hid)].
    + left. unfold appended. cbn [flat_map]. apply in_or_app. now right.
    + right. exists (e :: h1), a, m, h2. split; [reflexivity|]. split; [exact Hw|]. rewrite count_cons. lia.
Qed.

Lemma explained_id : forall h1 (l l' : ledger B) b i h2, explained l (h1 ++ Appended b i :: h2) l' ->
  i = l_next l + count h1.
Proof.
  intros h1 l l' b i h2 H. apply explained_app in H. destruct H as (m & H1 & H2).
  inversion H2 as [|? ? m' ? ? He _]; subst. apply explained_next in H1. inversion He; subst. cbn [l_next] in *. lia.
Qed.

Lemma count_app : forall h1 h2 : list (event B), count (h1 ++ h2) = count h1 + count h2.
Proof. intros h1 h2. unfold count, all_written. rewrite flat_map_app, app_length. lia. Qed.

Lemma position : forall (ha : list (event B)) x hb hc y hd, ha ++ x :: hb = hc ++ y :: hd ->
  count ha = count hc -> (1 <= length (written x))%nat -> (1 <= length (written y))%nat -> x = y.
Proof.
  intros ha x hb hc y hd E Hc Hx Hy. destruct (app_eq_app _ _ _ _ E) as (r & [[E1 E2]|[E1 E2]]).
  - destruct r as [|z r]; [cbn [app] in E2; congruence|]. cbn [app] in E2.
    assert (z = y) by congruence. subst z ha. rewrite count_app, count_cons in Hc.
    pose proof (count_nonneg r). lia.
  - destruct r as [|z r]; [cbn [app] in E2; congruence|]. cbn [app] in E2.
    assert (z = x) by congruence. subst z hc. rewrite count_app, count_cons in Hc.
    pose proof (count_nonneg r). lia.
Qed.

Lemma held_appended : forall h s id b b', sound_run memory_size listing initial 0 h s ->
  held (st_files (fst s)) id b -> In (id, b') (appended h) -> b = b'.
Proof.
  intros h s id b b' H Hh Hin. destruct (sound_related _ _ H) as (l & He & Hr & _).
  destruct (related_disk _ _ Hr) as (base & bs & closed & active & Hlog & _ & D).
  apply (disk_held _ _ _ _ _ _ _ _ D) in Hh. rewrite <- Hlog in Hh.
  assert (Hpos : forall b0, In (id, b0) (appended h) ->
    exists ha hb, h = ha ++ Appended b0 id :: hb /\ id = count ha).
  { intros b0 Hb0. unfold appended in Hb0. apply in_flat_map in Hb0. destruct Hb0 as (e & He' & Hb0).
    destruct e as [|b1 id1| | | | | | | |]; try contradiction. destruct Hb0 as [Hb0|[]].
    assert (b1 = b0 /\ id1 = id) as [-> ->] by (split; congruence).
    apply in_split in He'. destruct He' as (ha & hb & ->). exists ha, hb.
    pose proof (explained_id _ _ _ _ _ _ He). cbn [empty_ledger l_next] in *. split; [reflexivity|lia]. }
  destruct (Hpos _ Hin) as (ha & hb & E1 & C1).
  destruct (appended_in_log _ _ _ _ He Hh) as [[]|[_ [Ha|(hc & a & m & hd & E2 & Hw & C2)]]].
  - destruct (Hpos _ Ha) as (hc & hd & E2 & C2).
    assert (Appended b' id = Appended b id) by (apply (position ha _ hb hc _ hd); cbn; try lia; congruence).
    congruence.
  - cbn [fst snd empty_ledger l_next] in *.
    assert (Appended b' id = Crashed a m).
    { apply (position ha _ hb hc _ hd); [congruence|lia|cbn; lia|]. destruct (written (Crashed a m)); [destruct Hw|cbn; lia]. }
    discriminate.
Qed.

Lemma closed_length : forall h s a e f, sound_run memory_size listing initial 0 h s ->
  In (ClosedFile a e, f) (st_files (fst s)) -> Z.of_nat (length (f_batches f)) = e - a + 1 /\ a <= e.
Proof.
  intros h s a e f H Hin. destruct (sound_related _ _ H) as (l & _ & Hr & _).
  destruct (related_disk _ _ Hr) as (base & bs & closed & active & _ & _ & D).
  apply lookup_in in Hin; [|exact (di_nodup _ _ _ _ _ _ D)].
  destruct (di_closed _ _ _ _ _ _ D _ _ _ Hin) as (Hc & _ & ->).
  pose proof (di_ranges _ _ _ _ _ _ D) as Hr'. rewrite Forall_forall in Hr'. specialize (Hr' _ Hc).
  pose proof (di_start _ _ _ _ _ _ D). cbn [fst snd] in Hr'. rewrite between_length by lia. lia.
Qed.

(** *** Truncating *)
Lemma truncated_gone : forall h1 h2 out s i b,
  sound_run memory_size listing initial 0 (h1 ++ Truncated :: h2 ++ [Replayed out]) s -> In (i, b) out ->
  count h1 <= i /\ (In (i, b) (appended h2)
    \/ exists ha a m hb, h2 = ha ++ Crashed a m :: hb /\ In b (written (Crashed a m))
                        /\ i = count h1 + count ha).
Proof.
  intros h1 h2 out s i b H Hin.
  destruct (sound_split _ _ _ _ H) as (s0 & s1 & l0 & l1 & l & _ & _ & Hn0 & _ & _ & He1 & _ & _ & He & _).
  apply explained_app in He. destruct He as (l2 & He2 & He3).
  inversion He3 as [|? ? l3 ? ? Her _]; subst. inversion Her; subst. apply filter_not_in in Hin.
  destruct Hin as [Hin _].
  destruct (appended_in_log _ _ _ _ He2 Hin) as [H0|H0].
  - inversion He1; subst. destruct H0.
  - inversion He1; subst. cbn [l_next fst snd] in *. rewrite <- Hn0. exact H0.
Qed.

(** *** Recovering *)
Lemma recovering_same : forall (l l' : ledger B) h, explained l h l' -> Forall recovering h ->
  l_log l' = l_log l /\ l_commits l' = l_commits l.
Proof.
  intros l l' h H. induction H as [l|l e l' h l'' He H IH]; intros Hr; [auto|].
  apply Forall_cons_iff in Hr. destruct Hr as [Hr Hr']. destruct (IH Hr') as [H1 H2].
  rewrite H1, H2. destruct He; cbn [recovering l_log l_commits] in *; try destruct Hr; auto.
  destruct a; [destruct Hr|]. destruct m; [destruct Hr|]. subst log'. auto.
Qed.

Lemma opened_replayed : forall (l l' : ledger B) out, explained l [Opened; Replayed out] l' ->
  out = filter (not_in (l_commits l)) (l_log l).
Proof.
  intros l l' out H. inversion H as [|? ? m ? ? He H']; subst. inversion He; subst.
  inversion H' as [|? ? m' ? ? He' _]; subst. inversion He'; subst. reflexivity.
Qed.

Lemma recovery_repeatable : forall h s again out out' s1 s2,
  sound_run memory_size listing initial 0 h s -> Forall recovering again ->
  sound_run memory_size listing s (count h) (again ++ [Opened; Replayed out]) s1 ->
  sound_run memory_size listing s (count h) [Opened; Replayed out'] s2 -> out = out'.
Proof.
  intros h s again out out' s1 s2 H Hr H1 H2. destruct (sound_related _ _ H) as (l & _ & Hl & Hn).
  destruct (run_related memory_size listing _ _ _ _ Hlists H1 l Hl Hn) as (l1 & He1 & _).
  destruct (run_related memory_size listing _ _ _ _ Hlists H2 l Hl Hn) as (l2 & He2 & _).
  apply explained_app in He1. destruct He1 as (l3 & He3 & He4).
  destruct (recovering_same _ _ _ He3 Hr) as [E1 E2].
  rewrite (opened_replayed _ _ _ He4), (opened_replayed _ _ _ He2), E1, E2. reflexivity.
Qed.

(** *** Operations succeed *)
Lemma opening_succeeds : forall h st threshold, sound_run memory_size listing initial 0 h (st, None) ->
  shows_next (st_files st) (count h) ->
  exists ops w files, open_log listing st threshold = (ops, Ok w) /\ apply_ops (st_files st) ops = Some files.
Proof.
  intros h st threshold H Hs. destruct (sound_related _ _ H) as (l & _ & (base & bs & _ & Hn & Hc & _ & Hd) & Hn').
  cbn [fst snd] in *. destruct Hd as (closed & active & D). rewrite Hc in D.
  destruct (open_stages listing st threshold _ _ _ _ (count h) Hlists D) as (ops & w & files & E & A & _).
  - congruence.
  - exact Hs.
  - exists ops, w, files. auto.
Qed.

Lemma operations_succeed : forall h st w, sound_run memory_size listing initial 0 h (st, Some w) ->
  (forall b, exists s', step memory_size listing (st, Some w) (Appended b (count h)) s')
  /\ (forall ids, incl ids (st_commits st) -> exists s', step memory_size listing (st, Some w) (Marked ids) s')
  /\ (exists s', step memory_size listing (st, Some w) Truncated s')
  /\ (exists out s', step memory_size listing (st, Some w) (Replayed out) s').
Proof.
  intros h st w H. destruct (sound_related _ _ H) as (l & _ & (base & bs & _ & Hn & Hc & Hlt & Hd) & Hn').
  cbn [fst snd] in *. rewrite Hc in *. rewrite Hn in Hlt. split.
  { intros b. destruct (append memory_size w b) as [[ops w'] id] eqn:E.
    destruct (append_running memory_size _ _ _ _ _ _ _ _ _ _ Hd E Hlt) as (-> & files & A & _).
    eexists. rewrite <- Hn', Hn. econstructor; eauto. }
  split.
  { intros ids Hi. destruct (mark (B := B) w ids) as [ops w'] eqn:E.
    destruct (mark_running _ _ _ _ _ _ _ _ _ Hd E Hi) as (files & A & _). eexists. econstructor; eauto. }
  split.
  { destruct (truncate (B := B) w) as [ops w'] eqn:E.
    destruct (truncate_running _ _ _ _ _ _ _ _ Hd E Hlt) as (files & A & _). eexists. econstructor; eauto. }
  { eexists. eexists. econstructor. exact (replay_running _ _ _ _ _ _ Hd). }
Qed.

(** The next id is shown if the log is in use and the newest closed file is there or not needed. *)
Lemma running_shows : forall h st w, sound_run memory_size listing initial 0 h (st, Some w) ->
  ((exists s f, In (ActiveFile s, f) (st_files st) /\ f_batches f <> [])
   \/ (forall c e g, ~ In (ClosedFile c e, g) (st_files st))
   \/ exists c g, In (ClosedFile c (count h - 1), g) (st_files st)) ->
  shows_next (st_files st) (count h).
Proof.
  intros h st w H Hcases. destruct (sound_related _ _ H) as (l & _ & (base & bs & _ & Hn & Hc & Hlt & Hd) & Hn').
  cbn [fst snd] in *. pose proof (ru_disk _ _ _ _ _ _ Hd) as D. pose proof (di_nodup _ _ _ _ _ _ D) as Hnd.
  pose proof (active_lookup _ _ _ _ _ _ _ _ D) as La. pose proof (di_start _ _ _ _ _ _ D) as Hst.
  cbn [start_of] in Hst.
  assert (Hact : forall s f, In (ActiveFile s, f) (st_files st) ->
    s = w_start w /\ f = File true (between base bs (w_start w) (base + Z.of_nat (length bs))) false).
  { intros s f Hin. apply lookup_in in Hin; [|exact Hnd]. rewrite (di_active _ _ _ _ _ _ D s) in Hin.
    cbv iota beta in Hin. destruct (s =? w_start w) eqn:E; [|discriminate Hin]. split; [lia|congruence]. }
  split.
  - intros n f Hin. destruct n as [s|s e].
    + apply Hact in Hin. destruct Hin as [_ ->]. reflexivity.
    + apply lookup_in in Hin; [|exact Hnd]. now apply (di_closed _ _ _ _ _ _ D) in Hin.
  - left. exists (w_start w). eexists. split; [apply lookup_in; [exact Hnd|exact La]|]. cbn [f_batches].
    rewrite between_length by lia. split; [lia|].
    destruct Hcases as [(s & f & Hin & Hb)|[Hno|(c & g & Hin)]].
    + left. apply Hact in Hin. destruct Hin as [-> ->]. exact Hb.
    + right. left. exact Hno.
    + destruct (Z.eq_dec (w_start w) (base + Z.of_nat (length bs))) as [E|E].
      * right. right. exists c, g. replace (w_start w - 1) with (count h - 1) by lia. exact Hin.
      * left. intros E'. pose proof (between_length base bs (w_start w) (base + Z.of_nat (length bs))) as Hl.
        rewrite E' in Hl. cbn [length] in Hl. lia.
Qed.
End WalHistories.
