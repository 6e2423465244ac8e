(** The write-ahead log refines its specification. *)
From Coq Require Import ZArith Bool Lia List Sorting.Sorted Sorting.Permutation.
From Verif Require Import Model.Base Model.Wal Spec.WalSpec Proofs.WalFiles.
Import ListNotations.
Open Scope Z_scope.

Section WalProofs.
Context {B : Type} (memory_size : B -> Z).
Notation files_t := (list (name * file B)).
Notation next_of base bs := (base + Z.of_nat (length bs)) (only parsing).

Lemma contains_iff : forall ids id, contains ids id = true <-> In id ids.
Proof.
  intros ids id. unfold contains. rewrite existsb_exists. split.
  - intros (x & Hx & E). apply Z.eqb_eq in E. now subst.
  - intros H. exists id. split; [exact H|apply Z.eqb_refl].
Qed.

Lemma id_range_in : forall s e id, In id (id_range s e) <-> s <= id <= e.
Proof.
  intros s e id. unfold id_range. rewrite in_map_iff. split.
  - intros (k & <- & H). apply in_seq in H. lia.
  - intros H. exists (Z.to_nat (id - s)). split; [lia|]. apply in_seq. lia.
Qed.

Lemma fully_iff : forall persisted c, is_fully_persisted persisted c = true
  <-> forall id, fst c <= id <= snd c -> In id persisted.
Proof.
  intros persisted c. unfold is_fully_persisted. rewrite forallb_forall. split.
  - intros H id Hid. apply contains_iff, H. apply -> in_rev. now apply id_range_in.
  - intros H id Hid. apply contains_iff, H. apply in_rev in Hid. now apply id_range_in.
Qed.

Lemma disjoint : forall files closed active base bs ok c c' id,
  disk_inv (B := B) files closed active base bs ok -> In c closed -> In c' closed ->
  fst c <= id <= snd c -> fst c' <= id <= snd c' -> c = c'.
Proof.
  intros files closed active base bs ok c c' id D Hc Hc' H H'.
  pose proof (di_sorted _ _ _ _ _ _ D) as Hs. clear D.
  induction Hs as [|x closed Hs IH Hf]; [destruct Hc|]. rewrite Forall_forall in Hf.
  destruct Hc as [->|Hc], Hc' as [->|Hc'].
  - reflexivity.
  - specialize (Hf _ Hc'). lia.
  - specialize (Hf _ Hc). lia.
  - now apply IH.
Qed.

Lemma active_lookup : forall files closed s h t base bs ok,
  disk_inv (B := B) files closed (Some (s, h, t)) base bs ok ->
  lookup files (ActiveFile s) = Some (File h (between base bs s (next_of base bs)) t).
Proof.
  intros files closed s h t base bs ok D. rewrite (di_active _ _ _ _ _ _ D s).
  cbv iota beta. now rewrite Z.eqb_refl.
Qed.

(** A running log. *)
Record running (files : files_t) (w : wal) (base : Z) (bs : list B) (known commits : list Z) : Prop := {
  ru_disk : disk_inv files (w_closed w) (Some (w_start w, true, false)) base bs (fun id => In id known);
  ru_next : w_next w = next_of base bs;
  ru_known : incl known commits;
  ru_only : forall id, In id (w_persisted w) -> In id known;
  ru_all : forall id, In id known -> covered (w_closed w) id \/ w_start w <= id -> In id (w_persisted w) }.

Definition related (s : state B) (l : ledger B) : Prop :=
  exists base bs, l_log l = number base bs /\ l_next l = next_of base bs
    /\ l_commits l = st_commits (fst s) /\ (forall id, In id (l_commits l) -> id < l_next l)
    /\ match snd s with
       | None => exists closed active,
           disk_inv (st_files (fst s)) closed active base bs (fun id => In id (l_commits l))
       | Some w => running (st_files (fst s)) w base bs (l_known l) (l_commits l)
       end.

(** ** Creating an active file *)
Lemma new_active_prefix : forall k files closed base bs ok next, next = next_of base bs ->
  disk_inv (B := B) files closed None base bs ok ->
  exists files' active, apply_ops files (firstn k (new_active next)) = Some files'
    /\ disk_inv files' closed active base bs ok
    /\ ((2 <= k)%nat -> active = Some (next, true, false)).
Proof.
  intros k files closed base bs ok next Hn D.
  destruct (disk_create _ _ _ _ _ next Hn D) as (files1 & E1 & D1).
  destruct (disk_schema _ _ _ _ _ next _ Hn D1) as (files2 & E2 & D2).
  destruct k as [|[|k]].
  - exists files, None. split; [reflexivity|]. split; [exact D|lia].
  - exists files1, (Some (next, false, false)). cbn [firstn new_active apply_ops]. rewrite E1.
    split; [reflexivity|]. split; [exact D1|lia].
  - exists files2, (Some (next, true, false)). unfold new_active. cbn [firstn]. rewrite firstn_nil.
    cbn [apply_ops]. rewrite E1, E2. split; [reflexivity|]. split; [exact D2|reflexivity].
Qed.

Lemma new_active_all : forall files closed base bs ok next, next = next_of base bs ->
  disk_inv (B := B) files closed None base bs ok ->
  exists files', apply_ops files (new_active next) = Some files'
    /\ disk_inv files' closed (Some (next, true, false)) base bs ok.
Proof.
  intros files closed base bs ok next Hn D.
  destruct (new_active_prefix 2 files closed base bs ok next Hn D) as (files' & active & E & D' & Ha).
  rewrite (Ha (le_n 2)) in D'. now exists files'.
Qed.

(** ** Appending *)
Lemma append_running : forall files w base bs known commits b ops w' id,
  running files w base bs known commits -> append memory_size w b = (ops, w', id) ->
  (forall i, In i commits -> i < next_of base bs) ->
  id = next_of base bs
  /\ exists files', apply_ops files ops = Some files' /\ running files' w' base (bs ++ [b]) known commits.
Proof.
  intros files w base bs known commits b ops w' id [D Hn Hk Ho Ha] E Hc. unfold append in E.
  rewrite Hn in E.
  destruct (disk_write _ _ _ _ _ _ b D) as (files1 & E1 & D1).
  assert (Hnext : next_of base (bs ++ [b]) = next_of base bs + 1)
    by (rewrite app_length; cbn [length]; lia).
  pose proof (di_start _ _ _ _ _ _ D) as Hst. cbn [start_of] in Hst.
  destruct (w_threshold w <=? w_size w + memory_size b).
  - replace (next_of base bs + 1 - 1) with (next_of base bs) in E by lia.
    injection E as <- <- <-. split; [reflexivity|].
    destruct (disk_close _ _ _ _ _ _ _ D1 ltac:(lia)) as (files2 & E2 & D2).
    replace (next_of base (bs ++ [b]) - 1) with (next_of base bs) in E2, D2 by lia.
    destruct (new_active_all files2 _ _ _ _ (next_of base bs + 1) (eq_sym Hnext) D2) as (files3 & E3 & D3).
    exists files3. split.
    + pose proof (active_lookup _ _ _ _ _ _ _ _ D1) as La.
      cbn [app apply_ops]. rewrite E1.
      change (apply_op files1 (Finish (ActiveFile (w_start w))))
        with (match lookup files1 (ActiveFile (w_start w)) with Some _ => Some files1 | None => None end).
      rewrite La, E2. exact E3.
    + constructor; cbn [w_closed w_start w_next w_persisted]; auto.
      intros i Hi Hcov. apply Ha; [exact Hi|]. destruct Hcov as [(c & Hc' & Hr)|H].
      * apply in_app_or in Hc'. destruct Hc' as [Hc'|[<-|[]]]; [left; now exists c|].
        right. cbn [fst snd] in Hr. lia.
      * right. lia.
  - injection E as <- <- <-. split; [reflexivity|].
    exists files1. split; [cbn [apply_ops]; now rewrite E1|].
    constructor; cbn [w_closed w_start w_next w_persisted]; auto.
Qed.

Lemma append_crash : forall files w base bs known commits b k torn,
  running files w base bs known commits ->
  exists files' closed active,
    crash_ops files (fst (fst (append memory_size w b))) k torn = Some files'
    /\ disk_inv files' closed active base (match k with O => bs | S _ => bs ++ [b] end)
         (fun id => In id known)
    /\ incl (w_closed w) closed.
Proof.
  intros files w base bs known commits b k torn [D Hn Hk Ho Ha].
  destruct (disk_write _ _ _ _ _ _ b D) as (files1 & E1 & D1).
  assert (Hnext : next_of base (bs ++ [b]) = next_of base bs + 1)
    by (rewrite app_length; cbn [length]; lia).
  pose proof (di_start _ _ _ _ _ _ D) as Hst. cbn [start_of] in Hst.
  unfold crash_ops. destruct k as [|k].
  { cbn [firstn apply_ops].
    assert (Hop : nth_error (fst (fst (append memory_size w b))) 0
      = Some (WriteBatch (ActiveFile (w_start w)) b)).
    { unfold append. destruct (w_threshold w <=? w_size w + memory_size b); reflexivity. }
    rewrite Hop. destruct torn.
    - eexists _, (w_closed w), _. split; [reflexivity|]. split; [now apply disk_tear|apply incl_refl].
    - eexists _, (w_closed w), _. split; [reflexivity|]. split; [exact D|apply incl_refl]. }
  assert (Htear : forall f o, match o with Some (WriteBatch _ _) => False | _ => True end ->
    (if torn then tear (B := B) f o else f) = f).
  { intros f o Ho'. destruct torn; [|reflexivity]. destruct o as [[]|]; try reflexivity. contradiction. }
  unfold append. rewrite Hn. destruct (w_threshold w <=? w_size w + memory_size b).
  - replace (next_of base bs + 1 - 1) with (next_of base bs) by lia. cbn [fst].
    destruct (disk_close _ _ _ _ _ _ _ D1 ltac:(lia)) as (files2 & E2 & D2).
    replace (next_of base (bs ++ [b]) - 1) with (next_of base bs) in E2, D2 by lia.
    pose proof (active_lookup _ _ _ _ _ _ _ _ D1) as La.
    destruct k as [|[|k]].
    + cbn [app firstn apply_ops nth_error]. rewrite E1. rewrite Htear by exact I.
      eexists _, (w_closed w), _. split; [reflexivity|]. split; [exact D1|apply incl_refl].
    + cbn [app firstn apply_ops nth_error]. rewrite E1. cbn [apply_op]. rewrite La.
      rewrite Htear by exact I.
      eexists _, (w_closed w), _. split; [reflexivity|]. split; [exact D1|apply incl_refl].
    + destruct (new_active_prefix k files2 _ _ _ _ (next_of base bs + 1) (eq_sym Hnext) D2)
        as (files3 & active & E3 & D3 & _).
      exists files3, (w_closed w ++ [(w_start w, next_of base bs)]), active. split.
      * cbn [app firstn]. cbn [apply_ops]. rewrite E1.
        change (apply_op files1 (Finish (ActiveFile (w_start w))))
          with (match lookup files1 (ActiveFile (w_start w)) with Some _ => Some files1 | None => None end).
        rewrite La, E2. rewrite E3. rewrite Htear; [reflexivity|].
        cbn [nth_error app]. destruct k as [|[|[|k]]]; exact I.
      * split; [exact D3|]. intros c Hc. apply in_or_app. now left.
  - cbn [fst firstn]. rewrite firstn_nil. cbn [apply_ops nth_error]. rewrite E1.
    rewrite Htear by (destruct k; exact I).
    eexists _, (w_closed w), _. split; [reflexivity|]. split; [exact D1|apply incl_refl].
Qed.

(** ** Marking *)
Lemma filter_not_deleted : forall (p : Z * Z -> bool) closed,
  filter (fun c => negb (existsb (pair_eqb c) (filter p closed))) closed
  = filter (fun c => negb (p c)) closed.
Proof.
  intros p closed. apply filter_ext_in. intros c Hc. f_equal.
  destruct (p c) eqn:E.
  - apply existsb_exists. exists c. split; [now apply filter_In|]. now apply pair_eqb_eq.
  - apply not_true_iff_false. intros H. apply existsb_exists in H. destruct H as (x & Hx & E').
    apply pair_eqb_eq in E'. subst x. apply filter_In in Hx. destruct Hx. congruence.
Qed.

Lemma mark_general : forall files w base bs known commits ids ops w',
  disk_inv files (w_closed w) (Some (w_start w, true, false)) base bs (fun id => In id known) ->
  w_next w = next_of base bs -> incl known commits ->
  (forall id, In id (w_persisted w ++ ids) -> In id known) ->
  (forall id, In id known -> covered (w_closed w) id \/ w_start w <= id -> In id (w_persisted w ++ ids)) ->
  mark (B := B) w ids = (ops, w') ->
  exists files', apply_ops files ops = Some files' /\ running files' w' base bs known commits.
Proof.
  intros files w base bs known commits ids ops w' D Hn Hk Ho Ha E. unfold mark in E.
  injection E as <- <-.
  set (persisted := w_persisted w ++ ids) in *.
  set (dels := filter (is_fully_persisted persisted) (w_closed w)).
  destruct (disk_remove_all dels files (w_closed w) _ _ _ _ D) as (files' & E' & D2).
  { apply NoDup_filter. exact (disk_nodup_closed _ _ _ _ _ _ D). }
  { intros c Hc. now apply filter_In in Hc. }
  { intros c id Hc Hid. apply filter_In in Hc. destruct Hc as [_ Hc]. rewrite fully_iff in Hc. auto. }
  unfold dels in D2. rewrite filter_not_deleted in D2. fold dels in E'.
  exists files'. split; [exact E'|].
  constructor; cbn [w_closed w_start w_next w_persisted]; auto.
  - intros id H. apply filter_In in H. apply Ho. tauto.
  - intros id H Hcov. apply filter_In. fold persisted dels. split.
    + apply Ha; [exact H|].
      destruct Hcov as [(c & Hc & Hr)|Hs]; [|now right]. left. exists c.
      apply filter_In in Hc. tauto.
    + apply negb_true_iff, not_true_iff_false. intros H'. apply existsb_exists in H'.
      destruct H' as (c & Hc & Hr). apply filter_In in Hc. destruct Hc as [Hc Hfull].
      apply andb_true_iff in Hr. rewrite !Z.leb_le in Hr.
      destruct Hcov as [(c' & Hc' & Hr')|Hs].
      * apply filter_In in Hc'. destruct Hc' as [Hc' Hnot].
        assert (c = c') by now apply (disjoint _ _ _ _ _ _ _ _ id D). subst c'.
        rewrite Hfull in Hnot. discriminate Hnot.
      * pose proof (di_ranges _ _ _ _ _ _ D) as Hrg. rewrite Forall_forall in Hrg.
        specialize (Hrg _ Hc). cbn [start_of] in Hrg. lia.
Qed.

Lemma mark_running : forall files w base bs known commits ids ops w',
  running files w base bs known commits -> mark (B := B) w ids = (ops, w') -> incl ids commits ->
  exists files', apply_ops files ops = Some files' /\ running files' w' base bs (known ++ ids) commits.
Proof.
  intros files w base bs known commits ids ops w' [D Hn Hk Ho Ha] E Hi.
  apply (mark_general files w base bs (known ++ ids) commits ids); auto.
  - apply (disk_weaken _ _ _ _ _ (fun id => In id known)); [|exact D].
    intros id H. apply in_or_app. now left.
  - intros id H. apply in_app_or in H. destruct H; auto.
  - intros id H. apply in_app_or in H. apply in_or_app. destruct H; auto.
  - intros id H Hcov. apply in_app_or in H. apply in_or_app. destruct H; auto.
Qed.

Lemma firstn_nodup : forall (A : Type) k (l : list A), NoDup l -> NoDup (firstn k l).
Proof.
  intros A k l H. rewrite <- (firstn_skipn k l) in H. revert H. generalize (firstn k l) as a.
  induction a as [|x a IH]; intros H; [constructor|]. cbn [app] in H. apply NoDup_cons_iff in H.
  destruct H as [H1 H2]. constructor; [|now apply IH]. intros H. apply H1. apply in_or_app. now left.
Qed.
Lemma firstn_incl : forall (A : Type) k (l : list A), incl (firstn k l) l.
Proof. intros A k l x H. rewrite <- (firstn_skipn k l). apply in_or_app. now left. Qed.

Lemma mark_crash : forall files w base bs ids k closed active (ok : Z -> Prop),
  disk_inv (B := B) files closed active base bs ok -> incl (w_closed w) closed -> NoDup (w_closed w) ->
  (forall id, In id (w_persisted w) -> ok id) -> (forall id, In id ids -> ok id) ->
  exists files' closed', crash_ops files (fst (mark w ids)) k false = Some files'
    /\ disk_inv files' closed' active base bs ok.
Proof.
  intros files w base bs ids k closed active ok D Hi Hn Hp Hids. unfold crash_ops, mark. cbn [fst].
  set (dels := filter (is_fully_persisted (w_persisted w ++ ids)) (w_closed w)).
  rewrite firstn_map.
  destruct (disk_remove_all (firstn k dels) files closed active base bs ok D) as (files' & E & D').
  { apply firstn_nodup, NoDup_filter, Hn. }
  { intros c Hc. apply Hi. apply firstn_incl in Hc. now apply filter_In in Hc. }
  { intros c id Hc Hid. apply firstn_incl in Hc. apply filter_In in Hc. destruct Hc as [_ Hc].
    rewrite fully_iff in Hc. specialize (Hc id Hid). apply in_app_or in Hc. destruct Hc; auto. }
  unfold remove_all in E. rewrite E. eauto.
Qed.

(** ** Truncating *)
Lemma truncate_prefix : forall closed files s base bs ok next, next = next_of base bs ->
  disk_inv (B := B) files closed (Some (s, true, false)) base bs ok ->
  forall k, exists files' closed' active' base' bs' gone,
    apply_ops files (firstn k (remove_all closed ++ [Remove (ActiveFile s)] ++ new_active next)) = Some files'
    /\ disk_inv files' closed' active' base' bs' ok /\ next_of base' bs' = next
    /\ number base bs = gone ++ number base' bs'
    /\ ((length closed + 3 <= k)%nat ->
        closed' = [] /\ active' = Some (next, true, false) /\ bs' = []).
Proof.
  induction closed as [|c closed IH]; intros files s base bs ok next Hn D k.
  - destruct k as [|k].
    + exists files, [], (Some (s, true, false)), base, bs, []. cbn [firstn apply_ops length].
      split; [reflexivity|]. split; [exact D|]. split; [symmetry; exact Hn|]. split; [reflexivity|lia].
    + destruct (disk_drop_active _ _ _ _ _ _ _ D) as (files1 & E1 & D1).
      destruct (new_active_prefix k files1 [] (next_of base bs) [] ok next) as (files2 & active & E2 & D2 & Ha).
      { cbn [length]. lia. }
      { exact D1. }
      exists files2, [], active, (next_of base bs), [], (number base bs).
      cbn [remove_all map app firstn apply_ops]. rewrite E1. split; [exact E2|]. split; [exact D2|].
      split; [cbn [length]; lia|]. split; [cbn [number]; now rewrite app_nil_r|].
      cbn [length]. intros Hk. rewrite (Ha ltac:(lia)). auto.
  - destruct k as [|k].
    + exists files, (c :: closed), (Some (s, true, false)), base, bs, []. cbn [firstn apply_ops length].
      split; [reflexivity|]. split; [exact D|]. split; [symmetry; exact Hn|]. split; [reflexivity|lia].
    + destruct (disk_drop _ _ _ _ _ _ _ D) as (files1 & E1 & D1 & gone1 & G1).
      assert (Hn' : next = next_of (snd c + 1) (between base bs (snd c + 1) (next_of base bs))).
      { pose proof (di_ranges _ _ _ _ _ _ D) as Hr. apply Forall_cons_iff in Hr. destruct Hr as [Hr _].
        pose proof (di_start _ _ _ _ _ _ D) as Hst. cbn [start_of] in Hr, Hst.
        rewrite between_length by lia. lia. }
      destruct (IH files1 s _ _ ok next Hn' D1 k) as
        (files2 & closed' & active' & base' & bs' & gone2 & E2 & D2 & N2 & G2 & H2).
      exists files2, closed', active', base', bs', (gone1 ++ gone2).
      cbn [remove_all map app firstn apply_ops]. rewrite E1.
      split; [exact E2|]. split; [exact D2|]. split; [exact N2|].
      split; [rewrite G1, G2, <- app_assoc; reflexivity|].
      cbn [length]. intros Hk. apply H2. lia.
Qed.

Lemma truncate_running : forall files w base bs known commits ops w',
  running files w base bs known commits -> truncate (B := B) w = (ops, w') ->
  (forall i, In i commits -> i < next_of base bs) ->
  exists files', apply_ops files ops = Some files'
    /\ running files' w' (next_of base bs) [] known commits.
Proof.
  intros files w base bs known commits ops w' [D Hn Hk Ho Ha] E Hc. unfold truncate in E.
  injection E as <- <-.
  destruct (truncate_prefix (w_closed w) files (w_start w) base bs _ (w_next w) Hn D
    (length (w_closed w) + 3)%nat) as (files' & closed' & active' & base' & bs' & gone & E & D' & N & _ & Hall).
  destruct (Hall ltac:(lia)) as (-> & -> & ->). cbn [length] in N.
  rewrite firstn_all2 in E by (unfold remove_all; rewrite !app_length, map_length; cbn [length new_active]; lia).
  exists files'. split; [exact E|].
  replace base' with (next_of base bs) in D' by lia.
  constructor; cbn [w_closed w_start w_next w_persisted length]; auto.
  - lia.
  - intros id [].
  - intros id Hid [(c & [] & _)|Hs]. apply Hk, Hc in Hid. lia.
Qed.

(** ** Reading *)
Lemma closed_read : forall files closed' closed active base bs ok,
  disk_inv (B := B) files closed active base bs ok -> incl closed' closed ->
  closed_batches files closed'
  = Ok (concat (map (fun c => number (fst c) (between base bs (fst c) (snd c + 1))) closed')).
Proof.
  intros files closed' closed active base bs ok D. induction closed' as [|[s e] closed' IH]; intros Hi;
    [reflexivity|]. cbn [closed_batches map concat fst snd].
  assert (Hse : In (s, e) closed) by (apply Hi; now left).
  destruct (di_found _ _ _ _ _ _ D s e Hse) as [f Hf].
  destruct (di_closed _ _ _ _ _ _ D s e f Hf) as (_ & Hh & Hb).
  pose proof (di_ranges _ _ _ _ _ _ D) as Hr. rewrite Forall_forall in Hr. specialize (Hr _ Hse).
  pose proof (di_start _ _ _ _ _ _ D) as Hst. cbn [fst snd] in Hr.
  unfold read_batches. rewrite Hf, Hh, Hb. cbn [bind].
  rewrite IH by (intros c Hc; apply Hi; now right). cbn [bind].
  rewrite zip_number; [reflexivity|]. rewrite between_length by lia. lia.
Qed.

Lemma not_in_true : forall (p : Z * B) ids, not_in ids p = true <-> ~ In (fst p) ids.
Proof. intros p ids. unfold not_in. destruct (in_dec Z.eq_dec (fst p) ids); cbn [negb]; split; intros; congruence || tauto. Qed.

Lemma filter_none : forall (A : Type) (p : A -> bool) l, (forall a, In a l -> p a = false) -> filter p l = [].
Proof.
  intros A p l H. induction l as [|a l IH]; [reflexivity|]. cbn [filter]. rewrite (H a (or_introl eq_refl)).
  apply IH. intros x Hx. apply H. now right.
Qed.

(** Filtering the batches in closed files gives the same as filtering all batches if those in no
    file are filtered out. *)
Lemma closed_filter : forall known (bs : list B) base closed from start,
  StronglySorted (fun c c' : Z * Z => snd c < fst c') closed ->
  Forall (fun c => from <= fst c <= snd c /\ snd c < start) closed ->
  base <= from <= start -> start <= next_of base bs ->
  (forall id, from <= id < start -> covered closed id \/ In id known) ->
  filter (not_in known)
    (concat (map (fun c => number (fst c) (between base bs (fst c) (snd c + 1))) closed))
  = filter (not_in known) (number from (between base bs from start)).
Proof.
  intros known bs base closed. induction closed as [|[s e] closed IH]; intros from start Hs Hr Hf He Hc.
  - symmetry. apply filter_none. intros p Hp. apply number_in in Hp.
    rewrite between_length in Hp by lia.
    apply not_true_iff_false. rewrite not_in_true. intros Hnot. apply Hnot.
    destruct (Hc (fst p)) as [(c & [] & _)|H]; [lia|exact H].
  - apply StronglySorted_inv in Hs. destruct Hs as [Hs Hfa]. rewrite Forall_forall in Hfa.
    apply Forall_cons_iff in Hr. destruct Hr as [Hse Hr]. cbn [fst snd map concat] in *.
    rewrite filter_app.
    rewrite (between_split base bs from s start), (between_split base bs s (e + 1) start) by lia.
    rewrite !number_app, !filter_app, !between_length by lia.
    rewrite (filter_none _ _ (number from (between base bs from s))).
    + cbn [app]. replace (from + (s - from)) with s by lia. f_equal.
      replace (s + (e + 1 - s)) with (e + 1) by lia. apply IH; auto; try lia.
      * rewrite Forall_forall in Hr |- *. intros c Hc'. specialize (Hr c Hc'). specialize (Hfa c Hc').
        cbn [snd] in Hfa. lia.
      * intros id Hid. destruct (Hc id) as [(c & [<-|Hc'] & Hrc)|H]; [lia| | |now right].
        -- cbn [fst snd] in Hrc. lia.
        -- left. now exists c.
    + intros p Hp. apply number_in in Hp. rewrite between_length in Hp by lia.
      apply not_true_iff_false. rewrite not_in_true. intros Hnot. apply Hnot.
      destruct (Hc (fst p)) as [(c & [<-|Hc'] & Hrc)|H]; [lia| | |exact H].
      * cbn [fst snd] in Hrc. lia.
      * specialize (Hfa c Hc'). cbn [snd] in Hfa. lia.
Qed.

Lemma in_closed_number : forall base bs closed p,
  In p (concat (map (fun c => number (B := B) (fst c) (between base bs (fst c) (snd c + 1))) closed)) ->
  Forall (fun c => base <= fst c <= snd c /\ snd c < next_of base bs) closed -> covered closed (fst p).
Proof.
  intros base bs closed p H Hr. apply in_concat in H. destruct H as (l & Hl & Hp).
  apply in_map_iff in Hl. destruct Hl as (c & <- & Hc). rewrite Forall_forall in Hr.
  specialize (Hr c Hc). apply number_in in Hp. rewrite between_length in Hp by lia.
  exists c. split; [exact Hc|lia].
Qed.

Lemma replay_running : forall files w base bs known commits,
  running files w base bs known commits ->
  unpersisted files w = Ok (filter (not_in known) (number base bs)).
Proof.
  intros files w base bs known commits [D Hn Hk Ho Ha]. unfold unpersisted, all_batches.
  rewrite (closed_read files (w_closed w) (w_closed w) _ _ _ _ D (incl_refl _)). cbn [bind].
  unfold read_batches. rewrite (active_lookup _ _ _ _ _ _ _ _ D). cbn [f_header f_batches bind].
  pose proof (di_start _ _ _ _ _ _ D) as Hst. cbn [start_of] in Hst.
  pose proof (di_ranges _ _ _ _ _ _ D) as Hr. cbn [start_of] in Hr.
  rewrite zip_number by (rewrite between_length by lia; lia).
  f_equal. transitivity (filter (not_in known) (number base (between base bs base (next_of base bs)))); [|now rewrite between_all].
  rewrite (between_split base bs base (w_start w)), number_app by lia.
  rewrite between_length by lia. rewrite !filter_app.
  assert (Hr' : Forall (fun c => base <= fst c <= snd c /\ snd c < next_of base bs) (w_closed w)).
  { eapply Forall_impl; [|exact Hr]. cbv beta. intros; lia. }
  f_equal.
  - rewrite <- (closed_filter known bs base (w_closed w) base (w_start w)); auto; try lia.
    + apply filter_ext_in. intros p Hp. apply (in_closed_number _ _ _ _ Hp) in Hr'.
      apply eq_true_iff_eq. rewrite not_in_true, negb_true_iff, <- not_true_iff_false, contains_iff.
      split; intros Hnot H; apply Hnot; auto.
    + apply (di_sorted _ _ _ _ _ _ D).
    + apply (di_cover _ _ _ _ _ _ D).
  - replace (base + (w_start w - base)) with (w_start w) by lia.
    apply filter_ext_in. intros p Hp. apply number_in in Hp. rewrite between_length in Hp by lia.
    apply eq_true_iff_eq. rewrite not_in_true, negb_true_iff, <- not_true_iff_false, contains_iff.
    split; intros Hnot H; apply Hnot; auto. apply Ha; [exact H|]. right. lia.
Qed.

(** ** Opening *)
Lemma find_active : forall listing files closed active base bs ok,
  lists listing -> disk_inv (B := B) files closed active base bs ok ->
  find (fun p => is_active (fst p)) (listing files)
  = match active with
    | Some (s, h, t) => Some (ActiveFile s, File h (between base bs s (next_of base bs)) t)
    | None => None
    end.
Proof.
  intros listing files closed active base bs ok Hl D.
  apply (disk_permutation _ _ _ _ _ _ _ (Hl files)) in D.
  pose proof (di_nodup _ _ _ _ _ _ D) as Hn. pose proof (di_active _ _ _ _ _ _ D) as Ha.
  destruct (find (fun p => is_active (fst p)) (listing files)) as [[n f]|] eqn:E.
  - apply find_some in E. destruct E as [Hi Hact]. cbn [fst] in Hact.
    destruct n as [s|s e]; [|discriminate Hact]. apply lookup_in in Hi; [|exact Hn].
    rewrite (Ha s) in Hi. destruct active as [[[s0 h] t]|]; [|discriminate Hi].
    destruct (s =? s0) eqn:Es; [|discriminate Hi]. apply Z.eqb_eq in Es. subst s0. congruence.
  - destruct active as [[[s h] t]|]; [|reflexivity].
    specialize (Ha s). cbv iota beta in Ha. rewrite Z.eqb_refl in Ha. apply lookup_in in Ha; [|exact Hn].
    apply (find_none _ _ E) in Ha. discriminate Ha.
Qed.

Definition segment_of (n : name) : Z * Z := match n with ClosedFile s e => (s, e) | ActiveFile s => (s, s) end.

Lemma find_closed_names : forall files : files_t, (forall p, In p files -> is_active (fst p) = false) ->
  find_closed files = Ok (map (fun p => segment_of (fst p)) files).
Proof.
  induction files as [|[n f] files IH]; intros H; [reflexivity|]. cbn [find_closed map fst segment_of].
  specialize (H (n, f) (or_introl eq_refl)) as Hn. cbn [fst] in Hn. destruct n as [s|s e]; [discriminate Hn|].
  rewrite IH by (intros p Hp; apply H; now right). reflexivity.
Qed.

Lemma find_closed_ok : forall listing files closed base bs ok, lists listing ->
  disk_inv (B := B) files closed None base bs ok ->
  exists found, find_closed (listing files) = Ok found /\ Permutation found closed.
Proof.
  intros listing files closed base bs ok Hl D.
  apply (disk_permutation _ _ _ _ _ _ _ (Hl files)) in D.
  pose proof (di_nodup _ _ _ _ _ _ D) as Hn.
  assert (Hact : forall p, In p (listing files) -> is_active (fst p) = false).
  { intros [n f] Hp. cbn [fst]. destruct n as [s|s e]; [|reflexivity]. apply lookup_in in Hp; [|exact Hn].
    rewrite (di_active _ _ _ _ _ _ D s) in Hp. discriminate Hp. }
  eexists. split; [now apply find_closed_names|].
  apply NoDup_Permutation.
  - revert Hn Hact. generalize (listing files) as l. clear. induction l as [|[n f] l IH]; intros Hn Hact;
      [constructor|]. cbn [map fst] in *. apply NoDup_cons_iff in Hn. destruct Hn as [Hn Hnl].
    constructor; [|apply IH; auto; intros p Hp; apply Hact; now right].
    intros H. apply Hn. apply in_map_iff in H. destruct H as ([n' f'] & E & Hp). cbn [fst] in E.
    specialize (Hact (n, f) (or_introl eq_refl)) as A1. specialize (Hact (n', f') (or_intror Hp)) as A2.
    cbn [fst] in A1, A2. destruct n as [?|s e]; [discriminate A1|]. destruct n' as [?|s' e']; [discriminate A2|].
    cbn [segment_of] in E. apply in_map_iff. exists (ClosedFile s' e', f'). split; [cbn [fst]; congruence|exact Hp].
  - exact (disk_nodup_closed _ _ _ _ _ _ D).
  - intros [s e]. split.
    + intros H. apply in_map_iff in H. destruct H as ([n f] & E & Hp).
      specialize (Hact _ Hp). cbn [fst] in E, Hact. destruct n as [?|s' e']; [discriminate Hact|].
      cbn [segment_of] in E. assert (s' = s /\ e' = e) as [-> ->] by (split; congruence).
      apply lookup_in in Hp; [|exact Hn]. now apply (di_closed _ _ _ _ _ _ D) in Hp.
    + intros H. destruct (di_found _ _ _ _ _ _ D s e H) as [f Hf]. apply lookup_in in Hf; [|exact Hn].
      apply in_map_iff. now exists (ClosedFile s e, f).
Qed.

Lemma insert_segment_permutation : forall c l, Permutation (insert_segment c l) (c :: l).
Proof.
  intros c l. induction l as [|x l IH]; [apply Permutation_refl|]. cbn [insert_segment].
  destruct (fst c <=? fst x); [apply Permutation_refl|]. rewrite IH. apply perm_swap.
Qed.

Lemma sort_by_start_sorted : forall l, Permutation (sort_by_start l) l
  /\ StronglySorted (fun c c' : Z * Z => fst c <= fst c') (sort_by_start l).
Proof.
  induction l as [|c l [Hp Hs]]; [split; constructor|]. unfold sort_by_start. cbn [fold_right].
  fold (sort_by_start l). split; [rewrite insert_segment_permutation; now constructor|].
  revert Hs. generalize (sort_by_start l) as s. clear. induction s as [|x s IH]; intros Hs.
  - repeat constructor.
  - cbn [insert_segment]. apply StronglySorted_inv in Hs as Hs'. destruct Hs' as [Hs1 Hs2].
    rewrite Forall_forall in Hs2. destruct (fst c <=? fst x) eqn:E.
    + constructor; [exact Hs|]. constructor; [lia|]. apply Forall_forall. intros y Hy.
      specialize (Hs2 y Hy). lia.
    + constructor; [now apply IH|]. apply Forall_forall. intros y Hy.
      apply (Permutation_in _ (insert_segment_permutation c s)) in Hy. destruct Hy as [<-|Hy]; [lia|].
      now apply Hs2.
Qed.

Lemma sorted_unique : forall a b : list (Z * Z), Permutation a b ->
  StronglySorted (fun c c' => fst c <= fst c') a -> StronglySorted (fun c c' => fst c < fst c') b -> a = b.
Proof.
  intros a b. revert a. induction b as [|x b IH]; intros a Hp Ha Hb.
  - apply Permutation_sym, Permutation_nil in Hp. now subst.
  - destruct a as [|y a]; [apply Permutation_nil in Hp; discriminate|].
    apply StronglySorted_inv in Ha, Hb. destruct Ha as [Ha Hfa], Hb as [Hb Hfb].
    rewrite Forall_forall in Hfa, Hfb.
    assert (y = x).
    { assert (Hy : In y (x :: b)) by (apply (Permutation_in _ Hp); now left).
      assert (Hx : In x (y :: a)) by (apply (Permutation_in _ (Permutation_sym Hp)); now left).
      destruct Hy as [Hy|Hy]; [now symmetry|]. destruct Hx as [Hx|Hx]; [exact Hx|].
      specialize (Hfa _ Hx). specialize (Hfb _ Hy). lia. }
    subst y. f_equal. apply IH; auto. now apply Permutation_cons_inv in Hp.
Qed.

Lemma closed_sort : forall files closed active base bs ok found,
  disk_inv (B := B) files closed active base bs ok -> Permutation found closed ->
  sort_by_start found = closed.
Proof.
  intros files closed active base bs ok found D Hp.
  destruct (sort_by_start_sorted found) as [Hp' Hs]. apply sorted_unique.
  - now rewrite Hp'.
  - exact Hs.
  - pose proof (di_sorted _ _ _ _ _ _ D) as Hc. pose proof (di_ranges _ _ _ _ _ _ D) as Hr.
    assert (Hr' : Forall (fun c : Z * Z => fst c <= snd c) closed).
    { eapply Forall_impl; [|exact Hr]. cbv beta. intros; lia. }
    clear - Hc Hr'. induction Hc as [|c closed Hc IH Hf]; [constructor|].
    apply Forall_cons_iff in Hr'. destruct Hr' as [Hcc Hr']. constructor; [now apply IH|].
    eapply Forall_impl; [|exact Hf]. cbv beta. intros; lia.
Qed.

Lemma last_closed : forall files closed active base bs ok c next,
  disk_inv (B := B) files closed active base bs ok -> In (c, next - 1) closed ->
  next = next_of base bs -> exists s r, rev closed = (s, next - 1) :: r.
Proof.
  intros files closed active base bs ok c next D Hc Hn.
  pose proof (di_sorted _ _ _ _ _ _ D) as Hs. pose proof (di_ranges _ _ _ _ _ _ D) as Hr.
  pose proof (di_start _ _ _ _ _ _ D) as Hst. rewrite Forall_forall in Hr.
  destruct (rev closed) as [|[x y] r] eqn:E.
  - apply (f_equal (@rev _)) in E. rewrite rev_involutive in E. subst closed. destruct Hc.
  - assert (Ec : closed = rev r ++ [(x, y)]).
    { rewrite <- (rev_involutive closed), E. reflexivity. }
    assert (Hxy : In (x, y) closed) by (rewrite Ec; apply in_or_app; right; now left).
    pose proof (Hr _ Hxy) as Hrxy. cbn [fst snd] in Hrxy.
    rewrite Ec in Hc. apply in_app_or in Hc. destruct Hc as [Hc|[Hc|[]]].
    + rewrite Ec in Hs. clear - Hs Hc Hrxy Hst Hn. revert Hs Hc. generalize (rev r) as a.
      induction a as [|z a IH]; intros Hs Hc; [destruct Hc|]. cbn [app] in Hs.
      apply StronglySorted_inv in Hs. destruct Hs as [Hs Hf]. destruct Hc as [->|Hc]; [|now apply IH].
      rewrite Forall_forall in Hf. specialize (Hf (x, y)). cbn [fst snd] in Hf.
      assert (next - 1 < x) by (apply Hf; apply in_or_app; right; now left). lia.
    + exists x, r. injection Hc as _ ->. reflexivity.
Qed.

(** The first stage: the leftover active file. *)
Lemma leftover_stage : forall listing files closed active base bs ok next, lists listing ->
  disk_inv (B := B) files closed active base bs ok -> next = next_of base bs -> shows_next files next ->
  exists ops leftover files1 closed1,
    close_leftover (listing files) = Ok (ops, leftover)
    /\ (length ops <= 1)%nat /\ apply_ops files ops = Some files1
    /\ disk_inv files1 closed1 None base bs ok
    /\ match rev closed1, leftover with
       | (_, e) :: _, _ => e + 1
       | [], Some next => next
       | [], None => 0
       end = next.
Proof.
  intros listing files closed active base bs ok next Hl D Hnext [Hh Hshow].
  pose proof (di_nodup _ _ _ _ _ _ D) as Hnd. pose proof (di_start _ _ _ _ _ _ D) as Hst.
  unfold close_leftover. rewrite (find_active listing files closed active base bs ok Hl D).
  assert (Hin : forall n f, In (n, f) files <-> lookup files n = Some f)
    by (intros n f; symmetry; now apply lookup_in).
  destruct active as [[[s h] t]|].
  - pose proof (active_lookup _ _ _ _ _ _ _ _ D) as La. cbn [start_of] in Hst.
    assert (h = true) by (apply Hin in La; apply Hh in La; exact La). subst h.
    unfold read_batches. rewrite (lookup_permutation _ _ _ Hnd (Hl files)), La.
    cbn [f_header f_batches bind].
    assert (Hlen : Z.of_nat (length (between base bs s (next_of base bs))) = next_of base bs - s)
      by (apply between_length; lia).
    assert (Hshow' : between base bs s (next_of base bs) <> []
      \/ (forall c e g, ~ In (ClosedFile c e, g) files) \/ exists c g, In (ClosedFile c (s - 1), g) files).
    { destruct Hshow as [(s' & f & Hi & _ & Hs)|[[Hno _]|[Hno _]]].
      - apply Hin in Hi. rewrite (di_active _ _ _ _ _ _ D s') in Hi. cbv iota beta in Hi.
        destruct (s' =? s) eqn:E; [|discriminate Hi]. apply Z.eqb_eq in E. subst s'.
        injection Hi as <-. exact Hs.
      - apply Hin in La. destruct (Hno _ _ La).
      - subst files. discriminate La. }
    destruct (between base bs s (next_of base bs)) as [|b rest] eqn:Eb.
    + cbn [length] in Hlen. assert (Hs : s = next_of base bs) by lia.
      destruct (disk_remove_active _ _ _ _ _ _ _ D Hs) as (files1 & E1 & D1).
      exists [Remove (ActiveFile s)], (Some s), files1, closed.
      split; [reflexivity|]. split; [cbn [length]; lia|]. split; [cbn [apply_ops]; now rewrite E1|].
      split; [exact D1|].
      destruct Hshow' as [H|[H|(c & g & H)]]; [congruence| |].
      * destruct closed as [|[x y] closed]; [cbn [rev]; lia|].
        destruct (di_found _ _ _ _ _ _ D x y (or_introl eq_refl)) as [f Hf]. apply Hin in Hf.
        destruct (H _ _ _ Hf).
      * apply Hin in H. apply (di_closed _ _ _ _ _ _ D) in H. destruct H as [H _].
        destruct (last_closed _ _ _ _ _ _ c s D H Hs) as (x & r & Er). rewrite Er. lia.
    + rewrite <- Eb in *. assert (Hs : s < next_of base bs) by (rewrite Eb in Hlen; cbn [length] in Hlen; lia).
      rewrite Hlen. replace (s + (next_of base bs - s) - 1) with (next_of base bs - 1) by lia.
      destruct (disk_close _ _ _ _ _ _ _ D Hs) as (files1 & E1 & D1).
      exists [Rename (ActiveFile s) (ClosedFile s (next_of base bs - 1))], (Some (next_of base bs - 1 + 1)),
        files1, (closed ++ [(s, next_of base bs - 1)]).
      split; [reflexivity|]. split; [cbn [length]; lia|]. split; [cbn [apply_ops]; now rewrite E1|].
      split; [exact D1|]. rewrite rev_app_distr. cbn [rev app]. lia.
  - exists [], None, files, closed. split; [reflexivity|]. split; [cbn [length]; lia|].
    split; [reflexivity|]. split; [exact D|].
    destruct Hshow as [(s' & f & Hi & _ & Hs)|[[_ (c & g & H)]|[Hno Hz]]].
    + apply Hin in Hi. rewrite (di_active _ _ _ _ _ _ D s') in Hi. discriminate Hi.
    + apply Hin in H. apply (di_closed _ _ _ _ _ _ D) in H. destruct H as [H _].
      destruct (last_closed _ _ _ _ _ _ c next D H Hnext) as (x & r & Er). rewrite Er. lia.
    + subst files. destruct closed as [|[x y] closed]; [cbn [rev]; lia|].
      destruct (di_found _ _ _ _ _ _ D x y (or_introl eq_refl)) as [f Hf]. discriminate Hf.
Qed.

Lemma firstn_app_cases : forall (A : Type) k (a b : list A),
  firstn k (a ++ b) = firstn k a /\ (k <= length a)%nat
  \/ firstn k (a ++ b) = a ++ firstn (k - length a) b /\ (length a <= k)%nat.
Proof.
  intros A k a b. rewrite firstn_app. destruct (Nat.le_gt_cases k (length a)) as [H|H].
  - left. replace (k - length a)%nat with 0%nat by lia. cbn [firstn]. now rewrite app_nil_r.
  - right. rewrite (firstn_all2 a) by lia. split; [reflexivity|lia].
Qed.

Lemma open_stages : forall listing st threshold closed active base bs next, lists listing ->
  disk_inv (B := B) (st_files st) closed active base bs (fun id => In id (st_commits st)) ->
  next = next_of base bs -> shows_next (st_files st) next ->
  exists ops w files, open_log listing st threshold = (ops, Ok w)
    /\ apply_ops (st_files st) ops = Some files
    /\ running files w base bs (st_commits st) (st_commits st)
    /\ forall k, exists files' closed' active', apply_ops (st_files st) (firstn k ops) = Some files'
         /\ disk_inv files' closed' active' base bs (fun id => In id (st_commits st)).
Proof.
  intros listing st threshold closed active base bs next Hl D Hnext Hshow.
  destruct (leftover_stage listing _ _ _ _ _ _ next Hl D Hnext Hshow)
    as (ops & leftover & files1 & closed1 & E1 & Hlen & A1 & D1 & Hn).
  destruct (find_closed_ok listing files1 closed1 base bs _ Hl D1) as (found & E2 & Hp).
  destruct (new_active_all files1 closed1 base bs _ next Hnext D1) as (files2 & A2 & D2).
  unfold open_log. rewrite E1, A1, E2, (closed_sort _ _ _ _ _ _ _ D1 Hp), Hn.
  set (w0 := Wal next next 0 closed1 [] threshold).
  destruct (mark w0 (st_commits st)) as [removes w] eqn:Em.
  destruct (mark_general files2 w0 base bs (st_commits st) (st_commits st) (st_commits st) removes w)
    as (files3 & A3 & R).
  { exact D2. }
  { exact Hnext. }
  { apply incl_refl. }
  { intros id H. exact H. }
  { intros id H _. exact H. }
  { exact Em. }
  exists (ops ++ new_active next ++ removes), w, files3.
  split; [reflexivity|]. split; [rewrite apply_app, A1, apply_app, A2; exact A3|]. split; [exact R|].
  intros k. destruct (firstn_app_cases _ k ops (new_active next ++ removes)) as [[Ek Hk]|[Ek Hk]]; rewrite Ek.
  - destruct (Nat.eq_dec k (length ops)) as [->|Hne].
    + rewrite firstn_all. exists files1, closed1, None. split; [exact A1|exact D1].
    + replace k with 0%nat by lia. exists (st_files st), closed, active. split; [reflexivity|exact D].
  - rewrite apply_app, A1. set (k' := (k - length ops)%nat).
    destruct (firstn_app_cases _ k' (new_active next) removes) as [[Ek' Hk']|[Ek' Hk']]; rewrite Ek'.
    + destruct (new_active_prefix k' files1 closed1 base bs _ next Hnext D1) as (f & a & Ef & Df & _).
      exists f, closed1, a. split; [exact Ef|exact Df].
    + rewrite apply_app, A2.
      destruct (mark_crash files2 w0 base bs (st_commits st) (k' - length (new_active (B := B) next)) closed1
        (Some (next, true, false)) (fun id => In id (st_commits st)) D2) as (f & c & Ef & Df).
      { apply incl_refl. }
      { exact (disk_nodup_closed _ _ _ _ _ _ D2). }
      { intros id []. }
      { intros id H. exact H. }
      unfold crash_ops in Ef. rewrite Em in Ef. cbn [fst] in Ef.
      exists f, c, (Some (next, true, false)). split; [|exact Df].
      revert Ef. cbv iota. destruct (apply_ops files2 (firstn (k' - length (new_active (B := B) next)) removes));
        [trivial|discriminate].
Qed.

(** ** Every step *)
Lemma related_initial : related initial empty_ledger.
Proof.
  exists 0, []. cbn [initial empty_ledger fst snd l_log l_next l_commits st_commits st_files number length].
  split; [reflexivity|]. split; [reflexivity|]. split; [reflexivity|]. split; [intros id []|].
  exists [], None. constructor; cbn [start_of length map]; try lia; try reflexivity;
    try solve [constructor]; try solve [intros; lia]; try solve [intros; discriminate]; try solve [intros s e []].
Qed.

Lemma step_related : forall listing s l e s', lists listing -> related s l -> allowed s (l_next l) e ->
  step memory_size listing s e s' ->
  exists l', explains l e l' /\ related s' l'
    /\ l_next l' = l_next l + Z.of_nat (length (written e)).
Proof.
  intros listing s l e s' Hl (base & bs & Hlog & Hnext & Hcom & Hlt & Hrest) Hal Hstep.
  destruct l as [log next commits known]. cbn [l_log l_next l_commits l_known] in *. subst log.
  destruct Hstep as [st threshold ops w files Eo Ea|st w b ops w' id files Eo Ea|st w ids|
    st w ids ops w' files Eo Ea|st w ops w' files Eo Ea|st w t|st w batches Eu|st w a m files Ec|
    st w k files Ec|st threshold k files Ec]; cbn [fst snd st_files st_commits] in *.
  - (* opened *)
    destruct Hrest as (closed & active & D). cbn [allowed fst] in Hal. subst commits.
    destruct (open_stages listing st threshold _ _ _ _ next Hl D Hnext Hal) as (ops' & w' & files' & E & A & R & _).
    assert (ops' = ops /\ w' = w) as [-> ->] by (split; congruence).
    assert (files' = files) by congruence. subst files'.
    eexists. split; [constructor|]. split; [|cbn [l_next written length]; lia].
    exists base, bs. cbn [l_log l_next l_commits l_known fst snd st_commits st_files]. auto.
  - (* appended *)
    subst commits. rewrite Hnext in Hlt.
    destruct (append_running _ _ _ _ _ _ _ _ _ _ Hrest Eo Hlt) as (-> & files' & A & R).
    assert (files' = files) by congruence. subst files'. rewrite <- Hnext.
    eexists. split; [constructor|]. split; [|cbn [l_next written length]; lia].
    exists base, (bs ++ [b]). cbn [l_log l_next l_commits l_known fst snd st_commits st_files].
    split; [rewrite number_app, <- Hnext; reflexivity|].
    split; [rewrite app_length; cbn [length]; lia|]. split; [reflexivity|].
    split; [intros i Hi; specialize (Hlt i Hi); lia|exact R].
  - (* committed *)
    eexists. split; [constructor|]. split; [|cbn [l_next written length]; lia].
    exists base, bs. cbn [l_log l_next l_commits l_known fst snd st_commits st_files].
    split; [reflexivity|]. split; [exact Hnext|]. split; [now rewrite Hcom|]. split.
    + intros i Hi. apply in_app_or in Hi. destruct Hi; [now apply Hlt|]. now apply Hal.
    + destruct Hrest as [D Hn Hk Ho Ha]. constructor; auto.
      intros i Hi. apply in_or_app. left. now apply Hk.
  - (* marked *)
    cbn [allowed fst] in Hal. subst commits.
    destruct (mark_running _ _ _ _ _ _ _ _ _ Hrest Eo Hal) as (files' & A & R).
    assert (files' = files) by congruence. subst files'.
    eexists. split; [constructor|]. split; [|cbn [l_next written length]; lia].
    exists base, bs. cbn [l_log l_next l_commits l_known fst snd st_commits st_files]. auto.
  - (* truncated *)
    subst commits. rewrite Hnext in Hlt.
    destruct (truncate_running _ _ _ _ _ _ _ _ Hrest Eo Hlt) as (files' & A & R).
    assert (files' = files) by congruence. subst files'.
    eexists. split; [constructor|]. split; [|cbn [l_next written length]; lia].
    exists (next_of base bs), []. cbn [l_log l_next l_commits l_known fst snd st_commits st_files number length].
    split; [reflexivity|]. split; [lia|]. split; [reflexivity|]. split; [|exact R].
    intros i Hi. specialize (Hlt i Hi). lia.
  - (* threshold *)
    eexists. split; [constructor|]. split; [|cbn [l_next written length]; lia].
    exists base, bs. cbn [l_log l_next l_commits l_known fst snd st_commits st_files].
    split; [reflexivity|]. split; [exact Hnext|]. split; [exact Hcom|]. split; [exact Hlt|].
    destruct Hrest as [D Hn Hk Ho Ha]. constructor; auto.
  - (* replayed *)
    rewrite (replay_running _ _ _ _ _ _ Hrest) in Eu. injection Eu as <-.
    eexists. split; [constructor|]. split; [|cbn [l_next written length]; lia].
    exists base, bs. cbn [l_log l_next l_commits l_known fst snd]. auto.
  - (* crashed *)
    eexists. split; [constructor; reflexivity|]. split; [|reflexivity].
    pose proof (ru_disk _ _ _ _ _ _ Hrest) as D. pose proof (ru_known _ _ _ _ _ _ Hrest) as Hk.
    unfold crashed in Ec.
    assert (Hstage : exists files1 closed active bs1,
      match a with
      | Some (b, k, torn) => crash_ops (st_files st) (fst (fst (append memory_size w b))) k torn
      | None => Some (st_files st)
      end = Some files1
      /\ disk_inv files1 closed active base bs1 (fun id => In id known) /\ incl (w_closed w) closed
      /\ bs1 = bs ++ match written (Crashed a m) with b :: _ => [b] | [] => [] end).
    { destruct a as [[[b k] torn]|].
      - destruct (append_crash _ _ _ _ _ _ b k torn Hrest) as (files1 & closed & active & E & D1 & Hi).
        exists files1, closed, active, (match k with O => bs | S _ => bs ++ [b] end).
        split; [exact E|]. split; [exact D1|]. split; [exact Hi|]. destruct k; cbn [written];
          [now rewrite app_nil_r|reflexivity].
      - exists (st_files st), (w_closed w), (Some (w_start w, true, false)), bs.
        split; [reflexivity|]. split; [exact D|]. split; [apply incl_refl|]. cbn [written]. now rewrite app_nil_r. }
    destruct Hstage as (files1 & closed & active & bs1 & E1 & D1 & Hi & Hbs).
    rewrite E1 in Ec.
    assert (D1' : disk_inv files1 closed active base bs1 (fun id => In id commits)).
    { apply (disk_weaken _ _ _ _ _ (fun id => In id known)); [|exact D1]. intros id. apply Hk. }
    assert (Hw : written (Crashed a m) = [] \/ exists b, written (Crashed a m) = [b]).
    { destruct a as [[[b [|k]] torn]|]; cbn [written]; eauto. }
    exists base, bs1. cbn [l_log l_next l_commits l_known fst snd st_commits st_files].
    split.
    { destruct Hw as [Hw|[b Hw]]; rewrite Hw in Hbs |- *; subst bs1.
      - now rewrite app_nil_r.
      - rewrite number_app. now rewrite Hnext. }
    split.
    { destruct Hw as [Hw|[b Hw]]; rewrite Hw in Hbs |- *; subst bs1; rewrite app_length; cbn [length]; lia. }
    split; [exact Hcom|]. split; [intros i Hi'; specialize (Hlt i Hi'); lia|].
    destruct m as [[ids k]|].
    + (* The marked ids are committed or the mark is not allowed; deleting is checked either way. *)
      destruct (mark_crash files1 w base bs1 ids k closed active (fun id => In id commits) D1' Hi)
        as (files2 & closed2 & E2 & D2).
      { exact (disk_nodup_closed _ _ _ _ _ _ D). }
      { intros id H. apply Hk. now apply (ru_only _ _ _ _ _ _ Hrest). }
      { cbn [allowed fst] in Hal. rewrite Hcom. exact Hal. }
      assert (files2 = files) by congruence. subst files2. eauto.
    + injection Ec as <-. eauto.
  - (* crashed truncating *)
    pose proof (ru_disk _ _ _ _ _ _ Hrest) as D. pose proof (ru_known _ _ _ _ _ _ Hrest) as Hk.
    unfold crash_ops in Ec. unfold truncate in Ec. cbn [fst] in Ec.
    destruct (truncate_prefix (w_closed w) (st_files st) (w_start w) base bs _ (w_next w)
      (ru_next _ _ _ _ _ _ Hrest) D k) as (files' & closed' & active' & base' & bs' & gone & E & D' & N & G & _).
    unfold remove_all in E. rewrite E in Ec. injection Ec as <-.
    exists (Ledger (number base' bs') next commits known). split; [rewrite G; constructor|].
    split; [|cbn [l_next written length]; lia].
    exists base', bs'. cbn [l_log l_next l_commits l_known fst snd st_commits st_files].
    split; [reflexivity|]. split; [rewrite N, (ru_next _ _ _ _ _ _ Hrest); exact Hnext|].
    split; [exact Hcom|]. split; [exact Hlt|]. exists closed', active'.
    apply (disk_weaken _ _ _ _ _ (fun id => In id known)); [|exact D']. intros id. apply Hk.
  - (* crashed opening *)
    destruct Hrest as (closed & active & D). cbn [allowed fst] in Hal. subst commits.
    destruct (open_stages listing st threshold _ _ _ _ next Hl D Hnext Hal) as (ops' & w' & files' & E & _ & _ & Hk).
    rewrite E in Ec. cbn [fst] in Ec. unfold crash_ops in Ec.
    destruct (Hk k) as (files1 & closed1 & active1 & E1 & D1). rewrite E1 in Ec. injection Ec as <-.
    eexists. split; [constructor|]. split; [|cbn [l_next written length]; lia].
    exists base, bs. cbn [l_log l_next l_commits l_known fst snd st_commits st_files]. split; [reflexivity|]. split; [exact Hnext|]. split; [reflexivity|]. split; [exact Hlt|]. now exists closed1, active1.
Qed.

Lemma run_related : forall listing s next h s', lists listing -> sound_run memory_size listing s next h s' ->
  forall l, related s l -> l_next l = next -> exists l', explained l h l' /\ related s' l'.
Proof.
  intros listing s next h s' Hl H. induction H as [s next|s next e s' h s'' Hal Hst H IH]; intros l Hr Hn.
  - exists l. split; [constructor|exact Hr].
  - rewrite <- Hn in Hal. destruct (step_related listing s l e s' Hl Hr Hal Hst) as (l' & He & Hr' & Hn').
    destruct (IH l' Hr') as (l'' & He' & Hr''); [lia|].
    exists l''. split; [econstructor; eauto|exact Hr''].
Qed.
End WalProofs.
