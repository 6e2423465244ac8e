(** Which batches survive errors of the file system. *)
From Coq Require Import ZArith Bool Lia List Sorting.Sorted Sorting.Permutation.
From Verif Require Import Model.Base Model.Wal Model.WalErrors Spec.WalSpec Spec.WalErrorsSpec.
From Verif Require Import Proofs.WalFiles Proofs.WalProofs.
Import ListNotations.
Open Scope Z_scope.

Section WalErrorsProofs.
Context {B : Type} (memory_size : B -> Z).
Notation files_t := (list (name * file B)).
Notation next_of base bs := (base + Z.of_nat (length bs)) (only parsing).
Notation len bs := (Z.of_nat (length bs)) (only parsing).

(** ** Files *)

(** Removing closed files whose batches are not needed. *)
Lemma remove_some : forall dels files closed active base bs (ok : Z -> Prop) files',
  disk_inv (B := B) files closed active base bs ok ->
  (forall c id, In c dels -> fst c <= id <= snd c -> ok id) ->
  apply_ops files (remove_all dels) = Some files' ->
  exists closed', disk_inv files' closed' active base bs ok.
Proof.
  induction dels as [|c dels IH]; intros files closed active base bs ok files' D Hok E.
  - injection E as <-. now exists closed.
  - unfold remove_all in E. cbn [map apply_ops] in E. fold (remove_all (B := B) dels) in E.
    destruct (apply_op files (Remove (ClosedFile (fst c) (snd c)))) as [files1|] eqn:E1; [|discriminate E].
    assert (Hc : In c closed).
    { cbn [apply_op] in E1. destruct (lookup files (ClosedFile (fst c) (snd c))) as [f|] eqn:L;
        [|discriminate E1]. destruct (di_closed _ _ _ _ _ _ D _ _ _ L) as [H _].
      now rewrite <- surjective_pairing in H. }
    destruct (disk_remove _ _ _ _ _ _ c D Hc) as (files2 & E2 & D2).
    { intros id. apply Hok. now left. }
    assert (files2 = files1) by congruence. subst files2.
    apply (IH _ _ _ _ _ _ _ D2); [|exact E]. intros x id Hx. apply Hok. now right.
Qed.

(** Removing the active file if no batch is needed. *)
Lemma forget_active : forall files closed active s base bs (ok : Z -> Prop) files',
  disk_inv (B := B) files closed active base bs ok -> (forall id, id < next_of base bs -> ok id) ->
  apply_op files (Remove (ActiveFile s)) = Some files' ->
  disk_inv files' closed None base bs ok.
Proof.
  intros files closed active s base bs ok files' [D1 D2 D3 D4 D5 D6 D7 D8 D9 D10] Hok E.
  cbn [apply_op] in E. rewrite (D10 s) in E. destruct active as [[[s0 h] t]|]; [|discriminate E].
  destruct (s =? s0) eqn:Es; [|discriminate E]. apply Z.eqb_eq in Es. subst s0. injection E as <-.
  cbn [start_of] in *. constructor; cbn [start_of]; auto; try lia.
  - now apply without_nodup.
  - rewrite Forall_forall in D6 |- *. intros c Hc. specialize (D6 c Hc). lia.
  - intros id Hid. right. apply Hok. lia.
  - intros s' e f H. rewrite lookup_without in H. cbn [name_eqb] in H. now apply D8.
  - intros s' e H. rewrite lookup_without. cbn [name_eqb]. now apply D9.
  - intros s'. rewrite lookup_without. cbn [name_eqb]. rewrite (Z.eqb_sym s s'), (D10 s').
    destruct (s' =? s); reflexivity.
Qed.

(** A part of a batch at the end of the active file. *)
Lemma part_written : forall files closed s base bs ok,
  disk_inv (B := B) files closed (Some (s, true, false)) base bs ok ->
  disk_inv (write_part false files (ActiveFile s)) closed (Some (s, true, true)) base bs ok.
Proof.
  intros files closed s base bs ok D. destruct D as [D1 D2 D3 D4 D5 D6 D7 D8 D9 D10].
  cbn [start_of] in *. unfold write_part. rewrite (D10 s), Z.eqb_refl. cbn [f_header f_batches].
  constructor; cbn [start_of]; auto.
  - now apply with_nodup.
  - intros s' e f H. rewrite lookup_with in H. cbn [name_eqb] in H. now apply D8.
  - intros s' e H. rewrite lookup_with. cbn [name_eqb]. now apply D9.
  - intros s'. rewrite lookup_with. cbn [name_eqb]. rewrite (Z.eqb_sym s s').
    destruct (s' =? s) eqn:E; [reflexivity|]. now rewrite (D10 s'), E.
Qed.

(** ** Opening *)
Lemma mark_ok : forall files closed active base bs (ok : Z -> Prop) w ids k files',
  disk_inv (B := B) files closed active base bs ok ->
  (forall id, In id (w_persisted w ++ ids) -> ok id) ->
  apply_ops files (firstn k (fst (mark w ids))) = Some files' ->
  exists closed', disk_inv files' closed' active base bs ok.
Proof.
  intros files closed active base bs ok w ids k files' D Hok E. unfold mark in E. cbn [fst] in E.
  rewrite firstn_map in E. apply (remove_some _ _ _ _ _ _ _ _ D) in E; [exact E|].
  intros c id Hc Hid. apply firstn_incl in Hc. apply filter_In in Hc. destruct Hc as [_ Hc].
  rewrite fully_iff in Hc. auto.
Qed.

(** The numbered batches from an id on. *)
Lemma number_between : forall base (bs : list B) a c id b, base <= a <= c -> c <= next_of base bs ->
  In (id, b) (number a (between base bs a c)) <-> In (id, b) (number base bs) /\ a <= id < c.
Proof.
  intros base bs a c id b H1 H2.
  assert (E : number base bs = number base (between base bs base a) ++ number a (between base bs a c)
    ++ number c (between base bs c (next_of base bs))).
  { rewrite <- (between_all base bs) at 1.
    rewrite (between_split base bs base a), (between_split base bs a c) by lia.
    rewrite !number_app, !between_length by lia.
    replace (base + (a - base)) with a by lia. replace (a + (c - a)) with c by lia. reflexivity. }
  split.
  - intros H. split; [rewrite E; apply in_or_app; right; apply in_or_app; now left|].
    apply number_in in H. rewrite between_length in H by lia. cbn [fst] in H. lia.
  - intros [H Hr]. rewrite E in H. apply in_app_or in H. destruct H as [H|H].
    + apply number_in in H. rewrite between_length in H by lia. cbn [fst] in H. lia.
    + apply in_app_or in H. destruct H as [H|H]; [exact H|].
      apply number_in in H. rewrite between_length in H by lia. cbn [fst] in H. lia.
Qed.

Lemma number_ids_nodup : forall (bs : list B) base, NoDup (map fst (number base bs)).
Proof.
  induction bs as [|b bs IH]; intros base; [constructor|]. cbn [number map fst]. constructor; [|apply IH].
  intros H. apply in_map_iff in H. destruct H as (p & E & Hp). apply number_in in Hp. lia.
Qed.

Definition closed_ids (closed : list (Z * Z)) (base : Z) (bs : list B) : list (Z * B) :=
  concat (map (fun c => number (fst c) (between base bs (fst c) (snd c + 1))) closed).

Lemma closed_ids_in : forall closed base bs id b,
  Forall (fun c => base <= fst c <= snd c /\ snd c < next_of base bs) closed ->
  In (id, b) (closed_ids closed base bs) <-> In (id, b) (number base bs) /\ covered closed id.
Proof.
  intros closed base bs id b Hr. unfold closed_ids. rewrite in_concat. rewrite Forall_forall in Hr. split.
  - intros (l & Hl & Hp). apply in_map_iff in Hl. destruct Hl as (c & <- & Hc). specialize (Hr c Hc).
    apply number_between in Hp; try lia. destruct Hp as [Hp Hi]. split; [exact Hp|].
    exists c. split; [exact Hc|lia].
  - intros [Hp (c & Hc & Hi)]. specialize (Hr c Hc). eexists. split.
    + apply in_map_iff. exists c. split; [reflexivity|exact Hc].
    + apply number_between; try lia. split; [exact Hp|lia].
Qed.

Lemma nodup_app : forall (A : Type) (a b : list A), NoDup a -> NoDup b ->
  (forall x, In x a -> ~ In x b) -> NoDup (a ++ b).
Proof.
  intros A a b Ha Hb Hd. induction Ha as [|x a Hx Ha IH]; [exact Hb|]. cbn [app]. constructor.
  - intros H. apply in_app_or in H. destruct H as [H|H]; [contradiction|]. apply (Hd x); [now left|exact H].
  - apply IH. intros y Hy. apply Hd. now right.
Qed.

Lemma closed_ids_nodup : forall closed base bs,
  StronglySorted (fun c c' : Z * Z => snd c < fst c') closed ->
  Forall (fun c => base <= fst c <= snd c /\ snd c < next_of base bs) closed ->
  NoDup (map fst (closed_ids closed base bs)).
Proof.
  intros closed base bs Hs. induction Hs as [|c closed Hs IH Hf]; intros Hr; [constructor|].
  apply Forall_cons_iff in Hr. destruct Hr as [Hc Hr]. unfold closed_ids. cbn [map concat].
  fold (closed_ids closed base bs). rewrite map_app. apply nodup_app.
  - apply number_ids_nodup.
  - now apply IH.
  - intros id H H'. apply in_map_iff in H, H'. destruct H as ([i b] & E & H), H' as ([i' b'] & E' & H').
    cbn [fst] in E, E'. subst i i'. apply number_in in H. rewrite between_length in H by lia. cbn [fst] in H.
    apply closed_ids_in in H'; [|exact Hr]. destruct H' as [_ (c' & Hc' & Hi)].
    rewrite Forall_forall in Hf. specialize (Hf c' Hc'). lia.
Qed.

Lemma filter_ids_nodup : forall (p : Z * B -> bool) l, NoDup (map fst l) -> NoDup (map fst (filter p l)).
Proof.
  intros p l H. induction l as [|a l IH]; [constructor|]. cbn [map] in H. apply NoDup_cons_iff in H.
  destruct H as [Ha H]. cbn [filter]. destruct (p a); [|now apply IH]. cbn [map]. constructor; [|now apply IH].
  intros Hi. apply Ha. apply in_map_iff in Hi. destruct Hi as (x & E & Hx). apply filter_In in Hx.
  apply in_map_iff. exists x. tauto.
Qed.

Lemma open_general : forall listing st threshold closed active base bs (ok : Z -> Prop) next, lists listing ->
  disk_inv (B := B) (st_files st) closed active base bs ok ->
  (forall id, In id (st_commits st) -> ok id) ->
  next = next_of base bs -> shows_next (st_files st) next ->
  exists ops w files closed' batches, open_log listing st threshold = (ops, Ok w)
    /\ apply_ops (st_files st) ops = Some files
    /\ disk_inv files closed' (Some (next, true, false)) base bs ok
    /\ w_start w = next /\ w_next w = next /\ incl (w_persisted w) (st_commits st)
    /\ unpersisted files w = Ok batches
    /\ (forall id b, In (id, b) batches -> In (id, b) (number base bs) /\ ~ In id (st_commits st))
    /\ (forall id b, In (id, b) (number base bs) -> ~ ok id -> In (id, b) batches)
    /\ NoDup (map fst batches)
    /\ forall k files', apply_ops (st_files st) (firstn k ops) = Some files' ->
         exists closed' active', disk_inv files' closed' active' base bs ok.
Proof.
  intros listing st threshold closed active base bs ok next Hl D Hcom Hnext Hshow.
  destruct (leftover_stage listing _ _ _ _ _ _ next Hl D Hnext Hshow)
    as (ops & leftover & files1 & closed1 & E1 & Hlen & A1 & D1 & Hn).
  destruct (find_closed_ok listing files1 closed1 base bs _ Hl D1) as (found & E2 & Hp).
  destruct (new_active_all files1 closed1 base bs _ next Hnext D1) as (files2 & A2 & D2).
  unfold open_log. rewrite E1, A1, E2, (closed_sort _ _ _ _ _ _ _ D1 Hp), Hn.
  set (w0 := Wal next next 0 closed1 [] threshold).
  unfold mark. cbn [w0 w_persisted w_closed w_start w_next w_size w_threshold app].
  set (commits := st_commits st) in *.
  set (dels := filter (is_fully_persisted commits) closed1).
  set (retain := filter (fun s => negb (is_fully_persisted commits s)) closed1).
  destruct (disk_remove_all dels files2 closed1 _ _ _ _ D2) as (files3 & A3 & D3).
  { apply NoDup_filter. exact (disk_nodup_closed _ _ _ _ _ _ D2). }
  { intros c Hc. now apply filter_In in Hc. }
  { intros c id Hc Hid. apply filter_In in Hc. destruct Hc as [_ Hc]. rewrite fully_iff in Hc. auto. }
  unfold dels in D3. rewrite filter_not_deleted in D3. fold retain in D3. fold dels in A3.
  pose proof (di_start _ _ _ _ _ _ D3) as Hst. cbn [start_of] in Hst.
  pose proof (di_ranges _ _ _ _ _ _ D3) as Hr. cbn [start_of] in Hr.
  assert (Hr' : Forall (fun c => base <= fst c <= snd c /\ snd c < next_of base bs) retain)
    by (eapply Forall_impl; [|exact Hr]; cbv beta; intros; lia).
  eexists _, _, files3, retain, _. split; [reflexivity|].
  split; [rewrite apply_app, A1, apply_app, A2; exact A3|]. split; [exact D3|].
  split; [reflexivity|]. split; [reflexivity|].
  split; [intros id H; apply filter_In in H; tauto|].
  split.
  { unfold unpersisted, all_batches. cbn [w_closed w_start w_next w_persisted].
    rewrite (closed_read files3 retain retain _ _ _ _ D3 (incl_refl _)). cbn [bind].
    unfold read_batches. rewrite (active_lookup _ _ _ _ _ _ _ _ D3). cbn [f_header f_batches bind].
    rewrite between_empty by lia. cbn [zip_ids]. rewrite app_nil_r.
    fold (closed_ids retain base bs). reflexivity. }
  assert (Hkeep : forall id, covered retain id -> In id commits ->
    In id (filter (fun id => negb (existsb (fun s => (fst s <=? id) && (id <=? snd s)) dels)) commits)).
  { intros id (c & Hc & Hi) H. apply filter_In. split; [exact H|].
    apply negb_true_iff, not_true_iff_false. intros H'. apply existsb_exists in H'.
    destruct H' as (c' & Hc' & Hi'). apply andb_true_iff in Hi'. rewrite !Z.leb_le in Hi'.
    apply filter_In in Hc, Hc'. destruct Hc as [Hc Hf], Hc' as [Hc' Hf'].
    assert (c' = c) by now apply (disjoint _ _ _ _ _ _ _ _ id D1). subst c'.
    rewrite Hf' in Hf. discriminate Hf. }
  split.
  { intros id b H. apply filter_In in H. destruct H as [H Hf]. apply closed_ids_in in H; [|exact Hr'].
    destruct H as [H Hcov]. split; [exact H|]. intros Hc. cbn [fst] in Hf.
    apply negb_true_iff, not_true_iff_false in Hf. apply Hf, contains_iff. now apply Hkeep. }
  split.
  { intros id b H Hnot. pose proof (number_in _ _ _ H) as Hi. cbn [fst] in Hi. apply filter_In. split.
    - apply closed_ids_in; [exact Hr'|]. split; [exact H|].
      destruct (di_cover _ _ _ _ _ _ D3 id) as [Hc|Hc]; [cbn [start_of]; lia|exact Hc|contradiction].
    - cbn [fst]. apply negb_true_iff, not_true_iff_false. rewrite contains_iff. intros Hin.
      apply filter_In in Hin. apply Hnot, Hcom. tauto. }
  split.
  { apply filter_ids_nodup, closed_ids_nodup; [|exact Hr']. apply (di_sorted _ _ _ _ _ _ D3). }
  intros k files' Ek.
  change (map (fun s : Z * Z => Remove (B := B) (ClosedFile (fst s) (snd s))) dels)
    with (remove_all (B := B) dels) in Ek.
  destruct (firstn_app_cases _ k ops (new_active next ++ remove_all dels)) as [[Hk1 Hk]|[Hk1 Hk]];
    rewrite Hk1 in Ek.
  - destruct (Nat.eq_dec k (length ops)) as [->|Hne].
    + rewrite firstn_all in Ek. assert (files' = files1) by congruence. subst files'. eauto.
    + replace k with 0%nat in Ek by lia. injection Ek as <-. eauto.
  - rewrite apply_app, A1 in Ek. set (k' := (k - length ops)%nat) in *.
    destruct (firstn_app_cases _ k' (new_active (B := B) next) (remove_all dels)) as [[Hk2 Hk']|[Hk2 Hk']];
      rewrite Hk2 in Ek.
    + destruct (new_active_prefix k' files1 closed1 base bs _ next Hnext D1) as (f & a & Ef & Df & _).
      assert (files' = f) by congruence. subst f. eauto.
    + rewrite apply_app, A2 in Ek. unfold remove_all in Ek. rewrite firstn_map in Ek.
      apply (remove_some _ _ _ _ _ _ _ _ D2) in Ek; [destruct Ek as [c Hc]; eauto|].
      intros c id Hc Hid. apply firstn_incl in Hc. apply filter_In in Hc. destruct Hc as [_ Hc].
      rewrite fully_iff in Hc. auto.
Qed.

(** ** Appending *)
Lemma perform_clean : forall files closed s base bs ok b, 
  disk_inv (B := B) files closed (Some (s, true, false)) base bs ok ->
  perform_op false files (WriteBatch (ActiveFile s) b) = apply_op files (WriteBatch (ActiveFile s) b).
Proof.
  intros files closed s base bs ok b D. cbn [perform_op]. unfold write_batch.
  rewrite (active_lookup _ _ _ _ _ _ _ _ D). reflexivity.
Qed.

(** The files before each step. *)
Lemma append_files : forall files w closed bs ok b s files',
  disk_inv (B := B) files closed (Some (w_start w, true, false)) 0 bs ok -> w_next w = len bs ->
  performs memory_size w b s = true ->
  perform false files (firstn (before s) (fst (fst (append memory_size w b)))) = Some files' ->
  match s with
  | Writing => files' = files
  | Syncing | Finishing | Renaming =>
      disk_inv files' closed (Some (w_start w, true, false)) 0 (bs ++ [b]) ok
  | Creating => exists closed', disk_inv files' closed' None 0 (bs ++ [b]) ok
  | WritingSchema => exists closed' active', disk_inv files' closed' active' 0 (bs ++ [b]) ok
  end.
Proof.
  intros files w closed bs ok b s files' D Hn Hp E.
  destruct (disk_write _ _ _ _ _ _ b D) as (files1 & E1 & D1).
  pose proof (perform_clean _ _ _ _ _ _ b D) as Pc. rewrite E1 in Pc.
  pose proof (active_lookup _ _ _ _ _ _ _ _ D1) as La.
  pose proof (di_start _ _ _ _ _ _ D) as Hst. cbn [start_of] in Hst.
  assert (Hnext : 0 + len (bs ++ [b]) = len bs + 1) by (rewrite app_length; cbn [length]; lia).
  assert (Ea : fst (fst (append memory_size w b))
    = WriteBatch (ActiveFile (w_start w)) b ::
      (if closes memory_size w b then [Finish (ActiveFile (w_start w));
               Rename (ActiveFile (w_start w)) (ClosedFile (w_start w) (len bs));
               Create (ActiveFile (len bs + 1)); WriteHeader (ActiveFile (len bs + 1))] else [])).
  { unfold append, closes. destruct (w_threshold w <=? w_size w + memory_size b); [|reflexivity].
    cbn [fst app new_active]. rewrite Hn. replace (len bs + 1 - 1) with (len bs) by lia. reflexivity. }
  rewrite Ea in E. clear Ea.
  destruct s; cbn [performs] in Hp; try rewrite Hp in E; cbn [before firstn perform] in E; rewrite ?Pc in E.
  - congruence.
  - replace files' with files1 by congruence. exact D1.
  - replace files' with files1 by congruence. exact D1.
  - cbn [perform_op apply_op] in E. rewrite La in E. replace files' with files1 by congruence. exact D1.
  - destruct (disk_close _ _ _ _ _ _ _ D1 ltac:(lia)) as (files2 & E2 & D2).
    replace (0 + len (bs ++ [b]) - 1) with (len bs) in E2 by lia.
    change (perform_op false files1 (Finish (ActiveFile (w_start w))))
      with (match lookup files1 (ActiveFile (w_start w)) with Some _ => Some files1 | None => None end) in E.
    rewrite La in E. cbn [perform_op] in E. rewrite E2 in E. injection E as <-. eauto.
  - destruct (disk_close _ _ _ _ _ _ _ D1 ltac:(lia)) as (files2 & E2 & D2).
    replace (0 + len (bs ++ [b]) - 1) with (len bs) in E2 by lia.
    destruct (disk_create _ _ _ _ _ (len bs + 1) (eq_sym Hnext) D2) as (files3 & E3 & D3).
    change (perform_op false files1 (Finish (ActiveFile (w_start w))))
      with (match lookup files1 (ActiveFile (w_start w)) with Some _ => Some files1 | None => None end) in E.
    rewrite La in E. cbn [perform_op] in E. rewrite E2, E3 in E. injection E as <-. eauto.
Qed.

Lemma append_all : forall files w closed bs ok b ops w' id files',
  disk_inv (B := B) files closed (Some (w_start w, true, false)) 0 bs ok -> w_next w = len bs ->
  append memory_size w b = (ops, w', id) -> perform false files ops = Some files' ->
  id = len bs /\ w_next w' = len (bs ++ [b]) /\ w_persisted w' = w_persisted w
  /\ exists closed', disk_inv files' closed' (Some (w_start w', true, false)) 0 (bs ++ [b]) ok.
Proof.
  intros files w closed bs ok b ops w' id files' D Hn E P.
  destruct (disk_write _ _ _ _ _ _ b D) as (files1 & E1 & D1).
  pose proof (perform_clean _ _ _ _ _ _ b D) as Pc. rewrite E1 in Pc.
  pose proof (active_lookup _ _ _ _ _ _ _ _ D1) as La.
  pose proof (di_start _ _ _ _ _ _ D) as Hst. cbn [start_of] in Hst.
  assert (Hnext : 0 + len (bs ++ [b]) = len bs + 1) by (rewrite app_length; cbn [length]; lia).
  unfold append in E. rewrite Hn in E. destruct (w_threshold w <=? w_size w + memory_size b).
  - replace (len bs + 1 - 1) with (len bs) in E by lia. injection E as <- <- <-.
    split; [reflexivity|]. cbn [w_next w_persisted w_start]. split; [lia|]. split; [reflexivity|].
    destruct (disk_close _ _ _ _ _ _ _ D1 ltac:(lia)) as (files2 & E2 & D2).
    replace (0 + len (bs ++ [b]) - 1) with (len bs) in E2 by lia.
    destruct (disk_create _ _ _ _ _ (len bs + 1) (eq_sym Hnext) D2) as (files3 & E3 & D3).
    destruct (disk_schema _ _ _ _ _ (len bs + 1) _ (eq_sym Hnext) D3) as (files4 & E4 & D4).
    unfold new_active in P. cbn [app perform] in P. rewrite Pc in P.
    change (perform_op false files1 (Finish (ActiveFile (w_start w))))
      with (match lookup files1 (ActiveFile (w_start w)) with Some _ => Some files1 | None => None end) in P.
    rewrite La in P. cbn [perform_op] in P. rewrite E2, E3, E4 in P. injection P as <-. eauto.
  - injection E as <- <- <-. split; [reflexivity|]. cbn [w_next w_persisted w_start]. split; [lia|].
    split; [reflexivity|]. cbn [perform] in P. rewrite Pc in P. injection P as <-. eauto.
Qed.

(** ** Truncating *)
Lemma truncate_files : forall files w closed active bs (ok : Z -> Prop) k files',
  disk_inv (B := B) files closed active 0 bs ok -> (forall id, id < len bs -> ok id) ->
  w_next w = len bs ->
  apply_ops files (firstn k (fst (truncate w))) = Some files' ->
  exists closed' active', disk_inv files' closed' active' 0 bs ok
    /\ ((k <= length (w_closed w))%nat -> active' = active)
    /\ ((length (w_closed w) + 3 <= k)%nat -> active' = Some (len bs, true, false)).
Proof.
  intros files w closed active bs ok k files' D Hok Hn E. unfold truncate in E. cbn [fst] in E.
  change (map (fun s : Z * Z => Remove (B := B) (ClosedFile (fst s) (snd s))) (w_closed w))
    with (remove_all (B := B) (w_closed w)) in E.
  assert (Hl : length (remove_all (B := B) (w_closed w)) = length (w_closed w))
    by (unfold remove_all; apply map_length).
  (* Only files that exist are removed, so their ids are smaller. *)
  assert (Hgen : forall dels files closed files', disk_inv (B := B) files closed active 0 bs ok ->
    apply_ops files (remove_all dels) = Some files' -> exists closed', disk_inv files' closed' active 0 bs ok).
  { clear - Hok. induction dels as [|c dels IH]; intros files closed files' D E.
    - injection E as <-. now exists closed.
    - unfold remove_all in E. cbn [map apply_ops] in E. fold (remove_all (B := B) dels) in E.
      destruct (apply_op files (Remove (ClosedFile (fst c) (snd c)))) as [files1|] eqn:E1; [|discriminate E].
      assert (Hc : In c closed).
      { cbn [apply_op] in E1. destruct (lookup files (ClosedFile (fst c) (snd c))) as [f|] eqn:L;
          [|discriminate E1]. destruct (di_closed _ _ _ _ _ _ D _ _ _ L) as [H _].
        now rewrite <- surjective_pairing in H. }
      destruct (disk_remove _ _ _ _ _ _ c D Hc) as (files2 & E2 & D2).
      { intros id Hid. pose proof (di_ranges _ _ _ _ _ _ D) as Hr. rewrite Forall_forall in Hr.
        specialize (Hr _ Hc). pose proof (di_start _ _ _ _ _ _ D) as Hst. apply Hok. lia. }
      assert (files2 = files1) by congruence. subst files2. now apply (IH _ _ _ D2). }
  destruct (firstn_app_cases _ k (remove_all (B := B) (w_closed w))
    ([Remove (ActiveFile (w_start w))] ++ new_active (w_next w))) as [[Hk1 Hk]|[Hk1 Hk]]; rewrite Hk1 in E.
  - unfold remove_all in E. rewrite firstn_map in E. destruct (Hgen _ _ _ _ D E) as [c Hc].
    exists c, active. split; [exact Hc|]. split; [reflexivity|]. lia.
  - rewrite apply_app in E.
    destruct (apply_ops files (remove_all (w_closed w))) as [files1|] eqn:E1; [|discriminate E].
    destruct (Hgen _ _ _ _ D E1) as [closed1 D1]. rewrite Hl in E, Hk.
    destruct (k - length (w_closed w))%nat as [|k'] eqn:Ek.
    + injection E as <-. exists closed1, active. split; [exact D1|]. split; [reflexivity|lia].
    + cbn [app firstn apply_ops] in E.
      destruct (apply_op files1 (Remove (ActiveFile (w_start w)))) as [files2|] eqn:E2; [|discriminate E].
      pose proof (forget_active _ _ _ _ _ _ _ _ D1 ltac:(intros id Hid; apply Hok; lia) E2) as D2.
      destruct (new_active_prefix k' files2 closed1 0 bs ok (w_next w)) as (f & a & Ef & Df & Ha).
      { lia. }
      { exact D2. }
      assert (files' = f) by congruence. subst f. exists closed1, a. split; [exact Df|]. split; [lia|].
      intros Hk3. rewrite Ha by lia. now rewrite Hn.
Qed.

(** ** Every step *)
Definition ok_of (commits : list Z) (t : Z) (id : Z) : Prop := In id commits \/ id < t.

(** [bs] are the batches written so far, and those with ids less than [t] may be truncated. *)
Definition good (s : io_state B) (bs : list B) (t : Z) (harmed : bool) : Prop :=
  (forall id, In id (st_commits (fst s)) -> id < len bs) /\ t <= len bs
  /\ exists closed active, disk_inv (st_files (fst s)) closed active 0 bs (ok_of (st_commits (fst s)) t)
  /\ match snd s with
     | None => True
     | Some p => incl (w_persisted (p_wal p)) (st_commits (fst s))
         /\ (harmed = false -> p_unlinked p = false /\ w_next (p_wal p) = len bs
              /\ (p_finished p = false -> active = Some (w_start (p_wal p), true, false)))
     end.

Lemma good_initial : forall harmed, good io_initial [] 0 harmed.
Proof.
  intros harmed. split; [intros id []|]. split; [cbn [length]; lia|]. exists [], None. split; [|exact I].
  constructor; cbn [start_of length map io_initial fst st_files]; try lia; try reflexivity;
    try solve [constructor]; try solve [intros; lia]; try solve [intros; discriminate]; try solve [intros s e []].
Qed.

Lemma len_snoc : forall (bs : list B) b, len (bs ++ [b]) = len bs + 1.
Proof. intros bs b. rewrite app_length. cbn [length]. lia. Qed.

Lemma step_good : forall listing s e s' bs t harmed, lists listing -> good s bs t harmed ->
  io_allowed s (len bs) harmed e -> io_step memory_size listing s e s' ->
  (exists t', good s' (bs ++ io_written e) t' (harmed_after harmed e)
    /\ t <= t' /\ (~ io_truncating e -> t' = t))
  /\ match e with
     | Acknowledged _ id => id = len bs
     | Restarted batches =>
         (forall id b, In (id, b) batches -> In (id, b) (number 0 bs) /\ ~ In id (st_commits (fst s)))
         /\ (forall id b, In (id, b) (number 0 bs) -> ~ In id (st_commits (fst s)) -> t <= id ->
              In (id, b) batches)
         /\ NoDup (map fst batches)
     | _ => True
     end.
Proof.
  intros listing s e s' bs t harmed Hl (Hlt & Ht & closed & active & D & Hp) Hal Hstep.
  destruct Hstep as [st threshold ops w files batches Eo Ea Eu|st threshold k files Ea|
    st p b ops w' id files Hf Eo Ea|st p b s partial files Hf Hper Ea|st p b Hf|st p ids|
    st p ids ops w' files Eo Ea|st p ids k files Hk Ea|st p ops w' files Eo Ea|st p k files Hk Ea|
    st p th|st p]; cbn [fst snd st_files st_commits] in *; cbn [io_written harmed_after harms io_truncating].
  - (* restarted *)
    cbn [io_allowed fst] in Hal.
    destruct (open_general listing st threshold closed active 0 bs (ok_of (st_commits st) t) (len bs) Hl D)
      as (ops' & w' & files' & closed' & batches' & E1 & E2 & D' & Hs & Hn & Hi & E3 & B1 & B2 & B3 & _).
    { intros id H. now left. }
    { lia. }
    { exact Hal. }
    assert (ops' = ops /\ w' = w) as [-> ->] by (split; congruence).
    assert (files' = files) by congruence. subst files'.
    assert (batches' = batches) by congruence. subst batches'.
    split.
    + exists t. split; [|split; [lia|reflexivity]]. rewrite app_nil_r. split; [exact Hlt|].
      split; [exact Ht|]. exists closed', (Some (len bs, true, false)). split; [exact D'|].
      cbn [snd p_wal p_finished p_unlinked]. split; [exact Hi|]. intros _. split; [reflexivity|].
      split; [exact Hn|]. intros _. now rewrite Hs.
    + split; [exact B1|]. split; [|exact B3]. intros id b H Hc Hid. apply B2; [exact H|].
      intros [X|X]; [contradiction|lia].
  - (* restart failed *)
    cbn [io_allowed fst] in Hal.
    destruct (open_general listing st threshold closed active 0 bs (ok_of (st_commits st) t) (len bs) Hl D)
      as (ops' & w' & files' & closed' & batches' & E1 & E2 & D' & Hs & Hn & Hi & E3 & B1 & B2 & B3 & Hk).
    { intros id H. now left. }
    { lia. }
    { exact Hal. }
    rewrite E1 in Ea. cbn [fst] in Ea. destruct (Hk _ _ Ea) as (c & a & Hd). split; [|exact I].
    exists t. split; [|split; [lia|reflexivity]]. rewrite app_nil_r. split; [exact Hlt|].
    split; [exact Ht|]. exists c, a. split; [exact Hd|exact I].
  - (* acknowledged *)
    cbn [io_allowed] in Hal. subst harmed. destruct Hp as [Hi Hp]. destruct (Hp eq_refl) as (Hu & Hn & Ha).
    rewrite (Ha Hf) in D. rewrite Hu in Ea.
    destruct (append_all _ _ _ _ _ _ _ _ _ _ D Hn Eo Ea) as (Hid & Hn' & Hper & closed' & D').
    split; [|exact Hid]. exists t. split; [|split; [lia|reflexivity]].
    split; [intros i Hi'; apply Hlt in Hi'; rewrite len_snoc; lia|]. split; [rewrite len_snoc; lia|].
    exists closed', (Some (w_start w', true, false)). split; [exact D'|].
    cbn [snd p_wal p_finished p_unlinked]. split; [now rewrite Hper|]. intros _.
    split; [rewrite Hu; now destruct (closes memory_size (p_wal p) b)|]. split; [exact Hn'|reflexivity].
  - (* refused *)
    cbn [io_allowed] in Hal. subst harmed. destruct Hp as [Hi Hp]. destruct (Hp eq_refl) as (Hu & Hn & Ha).
    rewrite (Ha Hf) in D. split; [|exact I]. exists t. split; [|split; [lia|reflexivity]].
    unfold files_after_failed_append in Ea. rewrite Hu in Ea.
    destruct (perform false (st_files st)
      (firstn (before s) (fst (fst (append memory_size (p_wal p) b))))) as [files1|] eqn:E1; [|discriminate Ea].
    pose proof (append_files _ _ _ _ _ _ _ _ D Hn Hper E1) as Hd.
    assert (Hlt' : forall i, In i (st_commits st) -> i < len (bs ++ [b]))
      by (intros i Hi'; apply Hlt in Hi'; rewrite len_snoc; lia).
    assert (Ht' : t <= len (bs ++ [b])) by (rewrite len_snoc; lia).
    destruct s; cbn [harms orb].
    + subst files1. rewrite app_nil_r. destruct partial.
      * injection Ea as <-. split; [exact Hlt|]. split; [exact Ht|]. eexists _, _.
        split; [apply part_written, D|]. cbn [snd after_failed_append]. split; [exact Hi|].
        intros H. discriminate H.
      * injection Ea as <-. split; [exact Hlt|]. split; [exact Ht|]. eexists _, _. split; [exact D|].
        cbn [snd after_failed_append]. split; [exact Hi|]. intros _. auto.
    + injection Ea as <-. split; [exact Hlt'|]. split; [exact Ht'|]. eexists _, _. split; [exact Hd|].
      cbn [snd after_failed_append]. split; [exact Hi|]. intros H. discriminate H.
    + destruct partial.
      * injection Ea as <-. split; [exact Hlt'|]. split; [exact Ht'|]. eexists _, _.
        split; [apply part_written, Hd|]. cbn [snd after_failed_append p_wal w_persisted]. split; [exact Hi|].
        intros H. discriminate H.
      * injection Ea as <-. split; [exact Hlt'|]. split; [exact Ht'|]. eexists _, _. split; [exact Hd|].
        cbn [snd after_failed_append p_wal p_finished p_unlinked w_persisted w_next w_start].
        split; [exact Hi|]. intros _. split; [exact Hu|]. split; [rewrite len_snoc; lia|reflexivity].
    + injection Ea as <-. split; [exact Hlt'|]. split; [exact Ht'|]. eexists _, _. split; [exact Hd|].
      cbn [snd after_failed_append p_wal p_finished p_unlinked w_persisted w_next w_start].
      split; [exact Hi|]. intros _. split; [exact Hu|]. split; [rewrite len_snoc; lia|].
      intros H. discriminate H.
    + injection Ea as <-. destruct Hd as (c & Hd). split; [exact Hlt'|]. split; [exact Ht'|]. eexists _, _.
      split; [exact Hd|].
      cbn [snd after_failed_append p_wal p_finished p_unlinked w_persisted w_next w_start].
      split; [exact Hi|]. intros _. split; [exact Hu|]. split; [rewrite len_snoc; lia|].
      intros H. discriminate H.
    + injection Ea as <-. destruct Hd as (c & a & Hd). split; [exact Hlt'|]. split; [exact Ht'|]. eexists _, _.
      split; [exact Hd|].
      cbn [snd after_failed_append p_wal p_finished p_unlinked w_persisted w_next w_start].
      split; [exact Hi|]. intros _. split; [exact Hu|]. split; [rewrite len_snoc; lia|].
      intros H. discriminate H.
  - (* rejected *)
    split; [|exact I]. exists t. rewrite app_nil_r, orb_false_r. split; [|split; [lia|reflexivity]].
    split; [exact Hlt|]. split; [exact Ht|]. eauto.
  - (* committed *)
    cbn [io_allowed] in Hal. split; [|exact I]. exists t. rewrite app_nil_r, orb_false_r.
    split; [|split; [lia|reflexivity]]. unfold good. cbn [fst snd st_files st_commits].
    split; [intros id H; apply in_app_or in H; destruct H; auto|].
    split; [exact Ht|]. exists closed, active. split.
    + apply (disk_weaken _ _ _ _ _ (ok_of (st_commits st) t)); [|exact D].
      intros id [H|H]; [left; apply in_or_app; now left|now right].
    + destruct Hp as [Hi Hp]. split; [|exact Hp]. intros id H. apply in_or_app. left. now apply Hi.
  - (* marked *)
    cbn [io_allowed fst] in Hal. destruct Hp as [Hi Hp]. split; [|exact I]. exists t.
    rewrite app_nil_r, orb_false_r. split; [|split; [lia|reflexivity]].
    split; [exact Hlt|]. split; [exact Ht|].
    assert (Ea' : apply_ops (st_files st) (firstn (length ops) (fst (mark (p_wal p) ids))) = Some files)
      by (rewrite Eo; cbn [fst]; now rewrite firstn_all).
    assert (Hok : forall id, In id (w_persisted (p_wal p) ++ ids) -> ok_of (st_commits st) t id)
      by (intros id H; left; apply in_app_or in H; destruct H; auto).
    destruct (mark_ok _ _ _ _ _ _ _ _ _ _ D Hok Ea') as [c Hc].
    exists c, active. split; [exact Hc|]. unfold mark in Eo. injection Eo as <- <-.
    cbn [snd p_wal p_finished p_unlinked w_persisted w_next w_start]. split; [|exact Hp].
    intros id H. apply filter_In in H. destruct H as [H _]. apply in_app_or in H. destruct H; auto.
  - (* mark failed *)
    cbn [io_allowed fst] in Hal. destruct Hp as [Hi Hp]. split; [|exact I]. exists t.
    rewrite app_nil_r, orb_false_r. split; [|split; [lia|reflexivity]].
    split; [exact Hlt|]. split; [exact Ht|].
    assert (Hok : forall id, In id (w_persisted (p_wal p) ++ ids) -> ok_of (st_commits st) t id)
      by (intros id H; left; apply in_app_or in H; destruct H; auto).
    destruct (mark_ok _ _ _ _ _ _ _ _ _ _ D Hok Ea) as [c Hc].
    exists c, active. split; [exact Hc|].
    cbn [snd p_wal p_finished p_unlinked after_failed_mark w_persisted w_next w_start]. split; [|exact Hp].
    intros id H. apply filter_In in H. destruct H as [H _]. apply in_app_or in H. destruct H; auto.
  - (* truncated *)
    cbn [io_allowed] in Hal. subst harmed. destruct Hp as [Hi Hp]. destruct (Hp eq_refl) as (Hu & Hn & _).
    split; [|exact I]. exists (len bs). rewrite app_nil_r.
    split; [|split; [exact Ht|intros X; destruct (X I)]].
    split; [exact Hlt|]. split; [lia|].
    assert (D0 : disk_inv (st_files st) closed active 0 bs (ok_of (st_commits st) (len bs))).
    { apply (disk_weaken _ _ _ _ _ (ok_of (st_commits st) t)); [|exact D].
      intros id [H|H]; [now left|right; lia]. }
    assert (Ea' : apply_ops (st_files st) (firstn (length ops) (fst (truncate (p_wal p)))) = Some files)
      by (rewrite Eo; cbn [fst]; now rewrite firstn_all).
    destruct (truncate_files _ _ _ _ _ _ _ _ D0 (fun id H => or_intror H) Hn Ea') as (c & a & Hd & _ & Hall).
    unfold truncate in Eo. injection Eo as Eops <-. rewrite Hall in Hd.
    + exists c, (Some (len bs, true, false)). split; [exact Hd|].
      cbn [snd p_wal p_finished p_unlinked w_persisted w_next w_start].
      split; [intros id []|]. intros _. split; [reflexivity|]. split; [exact Hn|]. intros _. now rewrite Hn.
    + rewrite <- Eops, !app_length, map_length. cbn [length new_active]. lia.
  - (* truncate failed *)
    cbn [io_allowed] in Hal. subst harmed. destruct Hp as [Hi Hp]. destruct (Hp eq_refl) as (Hu & Hn & Ha).
    split; [|exact I]. exists (len bs). rewrite app_nil_r.
    split; [|split; [exact Ht|intros X; destruct (X I)]].
    split; [exact Hlt|]. split; [lia|].
    assert (D0 : disk_inv (st_files st) closed active 0 bs (ok_of (st_commits st) (len bs))).
    { apply (disk_weaken _ _ _ _ _ (ok_of (st_commits st) t)); [|exact D].
      intros id [H|H]; [now left|right; lia]. }
    destruct (truncate_files _ _ _ _ _ _ _ _ D0 (fun id H => or_intror H) Hn Ea) as (c & a & Hd & Hsame & _).
    exists c, a. split; [exact Hd|]. cbn [snd p_wal p_finished p_unlinked]. split; [exact Hi|].
    cbn [orb]. intros Hr. rewrite Hr, Hu. split; [reflexivity|]. split; [exact Hn|]. intros Hfin.
    apply Nat.ltb_ge in Hr. rewrite (Hsame Hr). now apply Ha.
  - (* threshold *)
    split; [|exact I]. exists t. rewrite app_nil_r, orb_false_r. split; [|split; [lia|reflexivity]].
    split; [exact Hlt|]. split; [exact Ht|]. exists closed, active. split; [exact D|exact Hp].
  - (* stopped *)
    split; [|exact I]. exists t. rewrite app_nil_r. split; [|split; [lia|reflexivity]].
    split; [exact Hlt|]. split; [exact Ht|]. exists closed, active. split; [exact D|exact I].
Qed.

(** ** Histories *)
Lemma number_snoc : forall (bs : list B) b base, number base (bs ++ [b]) = number base bs ++ [(next_of base bs, b)].
Proof. intros bs b base. rewrite number_app. reflexivity. Qed.

Definition harmed_by (h : list (io_event B)) (harmed : bool) : bool := fold_left harmed_after h harmed.

Lemma run_good : forall listing s next harmed h s', lists listing ->
  io_sound memory_size listing s next harmed h s' ->
  forall bs t, good s bs t harmed -> next = len bs ->
  exists t', good s' (bs ++ flat_map io_written h) t' (harmed_by h harmed) /\ t <= t'
    /\ (Forall (fun e => ~ io_truncating e) h -> t' = t).
Proof.
  intros listing s next harmed h s' Hl H.
  induction H as [s next harmed|s next harmed e s' h s'' Hal Hst H IH]; intros bs t G Hn.
  - exists t. cbn [flat_map harmed_by fold_left]. rewrite app_nil_r.
    split; [exact G|]. split; [lia|reflexivity].
  - subst next. destruct (step_good listing s e s' bs t harmed Hl G Hal Hst) as [(t1 & G1 & Ht1 & Hs1) _].
    destruct (IH _ _ G1) as (t2 & G2 & Ht2 & Hs2); [rewrite app_length; lia|].
    exists t2. cbn [flat_map]. rewrite app_assoc. split; [exact G2|]. split; [lia|].
    intros Hf. apply Forall_cons_iff in Hf. destruct Hf as [Hf1 Hf2]. rewrite Hs2 by exact Hf2. now apply Hs1.
Qed.

Lemma run_commits : forall listing s next harmed h s', io_sound memory_size listing s next harmed h s' ->
  st_commits (fst s') = st_commits (fst s) ++ ids_committed h.
Proof.
  intros listing s next harmed h s' H. induction H as [s next harmed|s next harmed e s' h s'' Hal Hst H IH].
  - now rewrite app_nil_r.
  - rewrite IH. unfold ids_committed. cbn [flat_map]. rewrite app_assoc. f_equal.
    destruct Hst; cbn [fst st_commits]; now rewrite ?app_nil_r.
Qed.

Lemma sound_split : forall listing h1 h2 s next harmed s'',
  io_sound memory_size listing s next harmed (h1 ++ h2) s'' ->
  exists s', io_sound memory_size listing s next harmed h1 s'
    /\ io_sound memory_size listing s' (next + io_count h1) (harmed_by h1 harmed) h2 s''.
Proof.
  intros listing h1. induction h1 as [|e h1 IH]; intros h2 s next harmed s'' H.
  - exists s. split; [constructor|]. unfold io_count. cbn [flat_map length app harmed_by fold_left] in *.
    now rewrite Z.add_0_r.
  - cbn [app] in H. inversion H as [|? ? ? ? s1 ? ? Hal Hst H1]; subst.
    destruct (IH _ _ _ _ _ H1) as (s' & Ha & Hb). exists s'. split.
    + econstructor; eassumption.
    + unfold io_count in *. cbn [flat_map]. rewrite app_length.
      replace (next + Z.of_nat (length (io_written e) + length (flat_map io_written h1)))
        with (next + len (io_written e) + len (flat_map io_written h1)) by lia. exact Hb.
Qed.

(** A history and its last event. *)
Lemma sound_last : forall listing h e s, lists listing ->
  io_sound memory_size listing io_initial 0 false (h ++ [e]) s ->
  exists s1 t, good s1 (flat_map io_written h) t (harmed_by h false)
    /\ io_sound memory_size listing io_initial 0 false h s1
    /\ io_allowed s1 (io_count h) (harmed_by h false) e /\ io_step memory_size listing s1 e s.
Proof.
  intros listing h e s Hl H. apply sound_split in H. destruct H as (s1 & H1 & H2).
  destruct (run_good _ _ _ _ _ _ Hl H1 [] 0 (good_initial false) eq_refl) as (t & G & _ & _).
  inversion H2 as [|? ? ? ? s2 ? ? Hal Hst H3]; subst. inversion H3; subst.
  exists s1, t. cbn [app] in G. rewrite Z.add_0_l in Hal. auto.
Qed.

Lemma acknowledged_id : forall listing h b id s, lists listing ->
  io_sound memory_size listing io_initial 0 false (h ++ [Acknowledged b id]) s -> id = io_count h.
Proof.
  intros listing h b id s Hl H. destruct (sound_last _ _ _ _ Hl H) as (s1 & t & G & _ & Hal & Hst).
  now destruct (step_good listing _ _ _ _ _ _ Hl G Hal Hst) as [_ X].
Qed.

(** What was written after the last attempt to truncate is replayed unless it is committed. *)
Lemma durable : forall listing h1 e h2 batches b s, lists listing ->
  io_sound memory_size listing io_initial 0 false (h1 ++ e :: h2 ++ [Restarted batches]) s ->
  io_written e = [b] -> Forall (fun e => ~ io_truncating e) h2 ->
  ~ In (io_count h1) (ids_committed h2) -> In (io_count h1, b) batches.
Proof.
  intros listing h1 e h2 batches b s Hl H He Hh2 Hc.
  pose proof H as Hfull.
  replace (h1 ++ e :: h2 ++ [Restarted batches]) with ((h1 ++ e :: h2) ++ [Restarted batches]) in Hfull
    by (rewrite <- app_assoc; reflexivity).
  apply sound_split in H. destruct H as (s1 & H1 & H2).
  destruct (run_good _ _ _ _ _ _ Hl H1 [] 0 (good_initial false) eq_refl) as (t1 & G1 & _ & _).
  cbn [app] in G1. rewrite Z.add_0_l in H2.
  inversion H2 as [|? ? ? ? s2 ? ? Hal Hst H3]; subst.
  apply sound_split in H3. destruct H3 as (s3 & H3 & H4).
  destruct (step_good listing _ _ _ _ _ _ Hl G1 Hal Hst) as [(t2 & G2 & _ & Ht2) _].
  assert (Hnt : ~ io_truncating e) by (intros X; destruct e; try discriminate He; exact X).
  specialize (Ht2 Hnt).
  destruct (run_good _ _ _ _ _ _ Hl H3 _ _ G2) as (t3 & G3 & _ & Ht3).
  { rewrite app_length. unfold io_count. lia. }
  specialize (Ht3 Hh2). subst t2 t3.
  inversion H4 as [|? ? ? ? s4 ? ? Hal4 Hst4 H5]; subst.
  pose proof (run_commits _ _ _ _ _ _ H3) as Hcom.
  assert (Hcount : io_count h1 + len (io_written e) + io_count h2
    = len (((flat_map io_written h1) ++ io_written e) ++ flat_map io_written h2))
    by (rewrite !app_length; unfold io_count; lia).
  rewrite Hcount in Hal4.
  destruct (step_good listing _ _ _ _ _ _ Hl G3 Hal4 Hst4) as [_ (_ & Hin & _)].
  pose proof G1 as (Hlt1 & Ht1 & _).
  apply Hin.
  - rewrite !number_app. apply in_or_app. left. apply in_or_app. right. rewrite He. left.
    unfold io_count. reflexivity.
  - rewrite Hcom. intros X. apply in_app_or in X. destruct X as [X|X]; [|contradiction].
    assert (Hs : st_commits (fst s2) = st_commits (fst s1)).
    { destruct Hst; try discriminate He; reflexivity. }
    rewrite Hs in X. apply Hlt1 in X. unfold io_count in X. lia.
  - unfold io_count. lia.
Qed.

(** What is replayed was written, is not committed, and is replayed once. *)
Lemma replayed_once : forall listing h batches s, lists listing ->
  io_sound memory_size listing io_initial 0 false (h ++ [Restarted batches]) s ->
  NoDup (map fst batches)
  /\ forall id b, In (id, b) batches -> ~ In id (ids_committed h)
     /\ exists h1 e h2, h = h1 ++ e :: h2 /\ io_written e = [b] /\ id = io_count h1.
Proof.
  intros listing h batches s Hl H. destruct (sound_last _ _ _ _ Hl H) as (s1 & t & G & H1 & Hal & Hst).
  pose proof (run_commits _ _ _ _ _ _ H1) as Hcom. cbn [io_initial fst st_commits app] in Hcom.
  destruct (step_good listing _ _ _ _ _ _ Hl G Hal Hst) as [_ (Hb & _ & Hn)]. split; [exact Hn|].
  intros id b Hi. destruct (Hb _ _ Hi) as [Hi' Hc]. split; [now rewrite <- Hcom|].
  clear - Hi'. revert Hi'. induction h as [|e h IH] using rev_ind; intros Hi; [destruct Hi|].
  rewrite flat_map_app in Hi. cbn [flat_map] in Hi. rewrite app_nil_r, number_app in Hi.
  apply in_app_or in Hi. destruct Hi as [Hi|Hi].
  - destruct (IH Hi) as (h1 & e' & h2 & -> & He & Hid). exists h1, e', (h2 ++ [e]).
    rewrite <- app_assoc. auto.
  - assert (Hw : io_written e = [] \/ exists b', io_written e = [b']).
    { destruct e as [| | |? st ?| | | | | | | |]; cbn [io_written]; eauto. destruct st; eauto. }
    destruct Hw as [Hw|[b' Hw]]; rewrite Hw in Hi; [destruct Hi|]. destruct Hi as [Hi|[]].
    exists h, e, []. rewrite Hw. unfold io_count. split; [reflexivity|]. split; [congruence|].
    assert (X : 0 + len (flat_map io_written h) = id) by congruence. lia.
Qed.

(** The log can be opened. *)
Lemma restarts : forall listing h s, lists listing ->
  io_sound memory_size listing io_initial 0 false h s -> snd s = None ->
  shows_next (st_files (fst s)) (io_count h) ->
  exists batches s', io_step memory_size listing s (Restarted batches) s'.
Proof.
  intros listing h [st p] Hl H Hp Hs. cbn [fst snd] in *. subst p.
  destruct (run_good _ _ _ _ _ _ Hl H [] 0 (good_initial false) eq_refl)
    as (t & (Hlt & Ht & closed & active & D & _) & _ & _). cbn [app fst] in *.
  destruct (open_general listing st 0 closed active 0 (flat_map io_written h)
    (ok_of (st_commits st) t) (io_count h) Hl D)
    as (ops & w & files & closed' & batches & E1 & E2 & D' & Hst & Hn & Hi & E3 & _).
  { intros id X. now left. }
  { unfold io_count. lia. }
  { exact Hs. }
  exists batches. eexists. econstructor; eassumption.
Qed.

(** A log whose writer is finished refuses all batches until it is renewed. *)
(** Whatever failed before, the next batch can be appended. *)
Lemma append_succeeds : forall files w closed bs ok b,
  disk_inv (B := B) files closed (Some (w_start w, true, false)) 0 bs ok -> w_next w = len bs ->
  exists ops w' files', append memory_size w b = (ops, w', len bs)
    /\ perform false files ops = Some files'.
Proof.
  intros files w closed bs ok b D Hn.
  destruct (disk_write _ _ _ _ _ _ b D) as (files1 & E1 & D1).
  pose proof (perform_clean _ _ _ _ _ _ b D) as Pc. rewrite E1 in Pc.
  pose proof (active_lookup _ _ _ _ _ _ _ _ D1) as La.
  pose proof (di_start _ _ _ _ _ _ D) as Hst. cbn [start_of] in Hst.
  assert (Hnext : 0 + len (bs ++ [b]) = len bs + 1) by (rewrite app_length; cbn [length]; lia).
  unfold append. rewrite Hn. destruct (w_threshold w <=? w_size w + memory_size b).
  - destruct (disk_close _ _ _ _ _ _ _ D1 ltac:(lia)) as (files2 & E2 & D2).
    replace (0 + len (bs ++ [b]) - 1) with (len bs) in E2 by lia.
    destruct (disk_create _ _ _ _ _ (len bs + 1) (eq_sym Hnext) D2) as (files3 & E3 & D3).
    destruct (disk_schema _ _ _ _ _ (len bs + 1) _ (eq_sym Hnext) D3) as (files4 & E4 & D4).
    eexists. eexists. exists files4. split; [reflexivity|].
    replace (len bs + 1 - 1) with (len bs) by lia.
    unfold new_active. cbn [app perform]. rewrite Pc.
    change (perform_op false files1 (Finish (ActiveFile (w_start w))))
      with (match lookup files1 (ActiveFile (w_start w)) with Some _ => Some files1 | None => None end).
    rewrite La. cbn [perform_op]. now rewrite E2, E3, E4.
  - eexists. eexists. exists files1. split; [reflexivity|]. cbn [perform]. now rewrite Pc.
Qed.

Lemma stopped_unharmed : forall listing s next harmed h s',
  io_sound memory_size listing s next harmed h s' -> (snd s = None -> harmed = false) ->
  snd s' = None -> harmed_by h harmed = false.
Proof.
  intros listing s next harmed h s' H.
  induction H as [s next harmed|s next harmed e s1 h s2 Hal Hst H IH]; intros A N; [now apply A|].
  cbn [harmed_by fold_left]. apply IH; [|exact N]. intros N1. clear - A Hst N1.
  inversion Hst; subst; cbn [snd] in *; try discriminate N1; cbn [harmed_after harms].
  - rewrite A by reflexivity. reflexivity.
  - reflexivity.
Qed.

Lemma ready : forall listing h e s b, lists listing ->
  io_sound memory_size listing io_initial 0 false (h ++ [e]) s -> io_ready e ->
  exists s', io_sound memory_size listing io_initial 0 false
    ((h ++ [e]) ++ [Acknowledged b (io_count (h ++ [e]))]) s'.
Proof.
  intros listing h e s b Hl H R.
  assert (Happ : forall h s e s', io_sound memory_size listing io_initial 0 false h s ->
    io_allowed s (io_count h) (harmed_by h false) e -> io_step memory_size listing s e s' ->
    io_sound memory_size listing io_initial 0 false (h ++ [e]) s').
  { clear. intros h s e s' H A St. change (io_count h) with (0 + io_count h) in A.
    revert A. induction H as [s next harmed|s next harmed e1 s1 h s2 Hal Hst H IH]; intros A.
    - unfold io_count in A. cbn [flat_map length harmed_by fold_left] in A. rewrite Z.add_0_r in A.
      econstructor; [exact A|exact St|]. constructor.
    - cbn [app]. econstructor; [exact Hal|exact Hst|]. apply IH; [exact St|].
      unfold io_count in *. cbn [flat_map] in A. rewrite app_length in A.
      replace (next + len (io_written e1) + len (flat_map io_written h))
        with (next + Z.of_nat (length (io_written e1) + length (flat_map io_written h))) by lia.
      exact A. }
  destruct (run_good _ _ _ _ _ _ Hl H [] 0 (good_initial false) eq_refl) as (t & G & _ & _).
  destruct (sound_last _ _ _ _ Hl H) as (s1 & t1 & _ & H1 & Hal & Hst).
  assert (Hh : harmed_by (h ++ [e]) false = false /\ exists st w, s = (st, Some (Process w false false))).
  { destruct e; try destruct R; cbn [io_allowed] in Hal.
    - split.
      + unfold harmed_by. rewrite fold_left_app. cbn [fold_left harmed_after harms].
        assert (snd s1 = None) as N by (inversion Hst; reflexivity).
        fold (harmed_by h false). rewrite orb_false_r.
        now apply (stopped_unharmed _ _ _ _ _ _ H1 (fun _ => eq_refl)).
      + inversion Hst; subst. eauto.
    - split.
      + unfold harmed_by. rewrite fold_left_app. cbn [fold_left harmed_after harms].
        fold (harmed_by h false). now rewrite Hal.
      + inversion Hst; subst. eauto. }
  destruct Hh as [Hh (st & w & ->)]. rewrite Hh in G.
  destruct G as (_ & _ & closed & active & D & _ & K). cbn [fst snd p_wal p_unlinked p_finished] in *.
  destruct (K eq_refl) as (_ & Hn & Ha). rewrite (Ha eq_refl) in D. clear K Ha. cbn [app] in D, Hn.
  destruct (append_succeeds _ _ _ _ _ b D Hn) as (ops & w' & files' & E1 & E2).
  eexists. eapply Happ; [exact H| |].
  - cbn [io_allowed]. exact Hh.
  - change (io_count (h ++ [e])) with (len (flat_map io_written (h ++ [e]))).
    eapply io_acknowledged; [reflexivity|exact E1|exact E2].
Qed.

Lemma finished_refuses : forall listing s h s', io_run memory_size listing s h s' ->
  (exists p, snd s = Some p /\ p_finished p = true) -> Forall (fun e => ~ io_renews e) h ->
  forall e, In e h -> match e with Acknowledged _ _ => False | _ => True end.
Proof.
  intros listing s h s' H. induction H as [s|s e s' h s'' Hst H IH]; intros (p & Hp & Hf) Hh e' He; [destruct He|].
  apply Forall_cons_iff in Hh. destruct Hh as [Hh1 Hh2].
  assert (X : match e with Acknowledged _ _ => False | _ => True end /\ exists p, snd s' = Some p /\ p_finished p = true).
  { destruct Hst; cbn [snd] in *; try discriminate Hp; try (injection Hp as <-);
      try (exfalso; apply Hh1; exact I); try congruence; (split; [exact I|]); eexists;
      (split; [reflexivity|]); cbn [p_finished]; assumption. }
  destruct X as [X1 X2]. destruct He as [<-|He]; [exact X1|]. now apply (IH X2 Hh2).
Qed.

Lemma stuck : forall listing s b st partial h s',
  io_run memory_size listing s (Refused b st partial :: h) s' ->
  match st with Renaming | Creating | WritingSchema => True | _ => False end ->
  Forall (fun e => ~ io_renews e) h -> forall b' id, ~ In (Acknowledged b' id) h.
Proof.
  intros listing s b st partial h s' H Hs Hh b' id He.
  inversion H as [|? ? s1 ? ? Hst H1]; subst.
  apply (finished_refuses _ _ _ _ H1) with (e := Acknowledged b' id) in He; [exact He| |exact Hh].
  inversion Hst; subst. cbn [snd]. eexists. split; [reflexivity|]. destruct st; try contradiction; reflexivity.
Qed.

End WalErrorsProofs.
