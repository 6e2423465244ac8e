(** The files of a write-ahead log. *)
From Coq Require Import ZArith Bool Lia List Sorting.Sorted Sorting.Permutation.
From Verif Require Import Model.Base Model.Wal Spec.WalSpec.
Import ListNotations.
Open Scope Z_scope.

Section WalFiles.
Context {B : Type}.
Notation files_t := (list (name * file B)).

(** ** Names *)
Lemma name_eqb_eq : forall a b, name_eqb a b = true <-> a = b.
Proof.
  intros [s|s e] [s'|s' e']; cbn [name_eqb]; split; intros H; try discriminate H.
  - apply Z.eqb_eq in H. now subst.
  - injection H as ->. apply Z.eqb_refl.
  - apply andb_true_iff in H. destruct H as [H1 H2]. apply Z.eqb_eq in H1, H2. now subst.
  - injection H as -> ->. now rewrite !Z.eqb_refl.
Qed.
Lemma name_eqb_neq : forall a b, name_eqb a b = false <-> a <> b.
Proof.
  intros a b. rewrite <- name_eqb_eq. destruct (name_eqb a b); split; intros; congruence.
Qed.
Lemma name_eqb_refl : forall a, name_eqb a a = true.
Proof. intros a. now apply name_eqb_eq. Qed.

Lemma lookup_cons : forall n f (files : files_t) m,
  lookup ((n, f) :: files) m = if name_eqb n m then Some f else lookup files m.
Proof. intros n f files m. unfold lookup. cbn [find fst]. destruct (name_eqb n m); reflexivity. Qed.

Lemma lookup_without : forall (files : files_t) n m,
  lookup (without files n) m = if name_eqb n m then None else lookup files m.
Proof.
  intros files n m. induction files as [|[k f] files IH].
  - cbn. now destruct (name_eqb n m).
  - unfold without. cbn [filter fst]. fold (without files n).
    destruct (name_eqb k n) eqn:E; cbn [negb].
    + rewrite IH, lookup_cons. apply name_eqb_eq in E. subst k. now destruct (name_eqb n m).
    + rewrite !lookup_cons, IH. destruct (name_eqb k m) eqn:E'; [|reflexivity].
      apply name_eqb_eq in E'. subst m. apply name_eqb_neq in E.
      destruct (name_eqb n k) eqn:E''; [|reflexivity]. apply name_eqb_eq in E''. congruence.
Qed.

Lemma lookup_with : forall (files : files_t) n f m,
  lookup (with_file files n f) m = if name_eqb n m then Some f else lookup files m.
Proof.
  intros files n f m. unfold with_file. rewrite lookup_cons, lookup_without.
  now destruct (name_eqb n m).
Qed.

Lemma lookup_in : forall (files : files_t) n f, NoDup (map fst files) ->
  lookup files n = Some f <-> In (n, f) files.
Proof.
  intros files n f Hn. induction files as [|[k g] files IH].
  - split; [discriminate|contradiction].
  - rewrite lookup_cons. cbn [map fst] in Hn. apply NoDup_cons_iff in Hn. destruct Hn as [Hk Hn].
    specialize (IH Hn). destruct (name_eqb k n) eqn:E.
    + apply name_eqb_eq in E. subst k. split.
      * intros H. injection H as ->. now left.
      * intros [H|H]; [congruence|]. destruct Hk. apply in_map_iff. now exists (n, f).
    + apply name_eqb_neq in E. rewrite IH. split; [now right|]. intros [H|H]; [congruence|exact H].
Qed.

Lemma lookup_none : forall (files : files_t) n, lookup files n = None <-> ~ In n (map fst files).
Proof.
  intros files n. induction files as [|[k g] files IH]; [split; [intros _ []|reflexivity]|].
  rewrite lookup_cons. cbn [map fst In]. destruct (name_eqb k n) eqn:E.
  - apply name_eqb_eq in E. split; [discriminate|]. intros H. destruct H. now left.
  - apply name_eqb_neq in E. rewrite IH. tauto.
Qed.

Lemma lookup_permutation : forall (files files' : files_t) n, NoDup (map fst files) ->
  Permutation files' files -> lookup files' n = lookup files n.
Proof.
  intros files files' n Hn Hp.
  assert (Hn' : NoDup (map fst files')).
  { apply (Permutation_NoDup (Permutation_map fst (Permutation_sym Hp)) Hn). }
  destruct (lookup files n) as [f|] eqn:E.
  - apply lookup_in in E; [|exact Hn]. apply lookup_in; [exact Hn'|].
    now apply (Permutation_in _ (Permutation_sym Hp)).
  - apply lookup_none in E. apply lookup_none. intros H. apply E.
    now apply (Permutation_in _ (Permutation_map fst Hp)).
Qed.

Lemma without_nodup : forall (files : files_t) n, NoDup (map fst files) ->
  NoDup (map fst (without files n)) /\ ~ In n (map fst (without files n)).
Proof.
  intros files n Hn. split.
  - induction files as [|[k f] files IH]; [constructor|]. unfold without. cbn [filter fst].
    fold (without files n). cbn [map fst] in Hn. apply NoDup_cons_iff in Hn. destruct Hn as [Hk Hn].
    destruct (name_eqb k n); cbn [negb]; [now apply IH|]. cbn [map fst]. constructor; [|now apply IH].
    intros H. apply Hk. apply in_map_iff in H. destruct H as (p & E & Hp). unfold without in Hp.
    apply filter_In in Hp. apply in_map_iff. exists p. tauto.
  - apply lookup_none. now rewrite lookup_without, name_eqb_refl.
Qed.

Lemma with_nodup : forall (files : files_t) n f, NoDup (map fst files) ->
  NoDup (map fst (with_file files n f)).
Proof.
  intros files n f Hn. destruct (without_nodup files n Hn) as [H1 H2]. unfold with_file.
  cbn [map fst]. now constructor.
Qed.

(** ** Numbered batches *)
Fixpoint number (i : Z) (bs : list B) : list (Z * B) :=
  match bs with [] => [] | b :: bs => (i, b) :: number (i + 1) bs end.

Lemma number_app : forall bs bs' i,
  number i (bs ++ bs') = number i bs ++ number (i + Z.of_nat (length bs)) bs'.
Proof.
  induction bs as [|b bs IH]; intros bs' i; cbn [number app].
  - f_equal. cbn [length]. lia.
  - rewrite IH. do 2 f_equal. f_equal. cbn [length]. lia.
Qed.

Lemma number_in : forall bs i p, In p (number i bs) -> i <= fst p < i + Z.of_nat (length bs).
Proof.
  induction bs as [|b bs IH]; intros i p H; [destruct H|]. cbn [number length] in *.
  destruct H as [<-|H]; [cbn [fst]; lia|]. apply IH in H. lia.
Qed.

Lemma number_nth : forall bs i k b, nth_error bs k = Some b -> In (i + Z.of_nat k, b) (number i bs).
Proof.
  induction bs as [|b' bs IH]; intros i [|k] b H; try discriminate H; cbn [number].
  - cbn [nth_error] in H. left. f_equal; [lia|congruence].
  - right. replace (i + Z.of_nat (S k)) with (i + 1 + Z.of_nat k) by lia. now apply IH.
Qed.

Lemma zip_number : forall bs s e, Z.of_nat (length bs) <= e - s + 1 -> zip_ids s e bs = number s bs.
Proof.
  induction bs as [|b bs IH]; intros s e H; [reflexivity|]. cbn [zip_ids number length] in *.
  destruct (s <=? e) eqn:E; [|lia]. f_equal. apply IH. lia.
Qed.

(** The batches with ids in [a, b) if the first id of [bs] is [base]. *)
Definition between (base : Z) (bs : list B) (a b : Z) : list B :=
  firstn (Z.to_nat (b - a)) (skipn (Z.to_nat (a - base)) bs).

Lemma between_length : forall base bs a b, base <= a <= b -> b <= base + Z.of_nat (length bs) ->
  Z.of_nat (length (between base bs a b)) = b - a.
Proof. intros base bs a b H1 H2. unfold between. rewrite firstn_length, skipn_length. lia. Qed.

Lemma skipn_add : forall (A : Type) m n (l : list A), skipn m (skipn n l) = skipn (n + m) l.
Proof.
  intros A m n. revert m. induction n as [|n IH]; intros m l; [reflexivity|].
  destruct l as [|a l]; [now rewrite !skipn_nil|]. cbn [skipn Nat.add]. apply IH.
Qed.

Lemma firstn_add : forall (A : Type) m n (l : list A),
  firstn (m + n) l = firstn m l ++ firstn n (skipn m l).
Proof.
  induction m as [|m IH]; intros n l; [reflexivity|]. destruct l as [|a l].
  - now rewrite skipn_nil, !firstn_nil.
  - cbn [firstn Nat.add skipn app]. f_equal. apply IH.
Qed.

Lemma between_split : forall base bs a b c, base <= a <= b -> b <= c ->
  between base bs a c = between base bs a b ++ between base bs b c.
Proof.
  intros base bs a b c H1 H2. unfold between.
  replace (Z.to_nat (c - a)) with (Z.to_nat (b - a) + Z.to_nat (c - b))%nat by lia.
  rewrite firstn_add, skipn_add. do 3 f_equal. lia.
Qed.

Lemma between_empty : forall base bs a b, b <= a -> between base bs a b = [].
Proof. intros base bs a b H. unfold between. replace (Z.to_nat (b - a)) with 0%nat by lia. reflexivity. Qed.

Lemma between_all : forall base bs, between base bs base (base + Z.of_nat (length bs)) = bs.
Proof.
  intros base bs. unfold between. rewrite Z.sub_diag. cbn [skipn Z.to_nat].
  replace (Z.to_nat (base + Z.of_nat (length bs) - base)) with (length bs) by lia. apply firstn_all.
Qed.

Lemma between_extend : forall base bs b a c, base <= a -> c <= base + Z.of_nat (length bs) ->
  between base (bs ++ [b]) a c = between base bs a c.
Proof.
  intros base bs b a c H1 H2. unfold between. rewrite skipn_app, firstn_app, skipn_length.
  destruct (Z_le_gt_dec a c) as [H|H].
  - replace (Z.to_nat (c - a) - (length bs - Z.to_nat (a - base)))%nat with 0%nat by lia.
    cbn [firstn]. now rewrite app_nil_r.
  - replace (Z.to_nat (c - a)) with 0%nat by lia. reflexivity.
Qed.

Lemma between_append : forall base bs b a, base <= a <= base + Z.of_nat (length bs) ->
  between base (bs ++ [b]) a (base + Z.of_nat (length (bs ++ [b])))
  = between base bs a (base + Z.of_nat (length bs)) ++ [b].
Proof.
  intros base bs b a H. rewrite app_length. cbn [length].
  rewrite (between_split _ _ a (base + Z.of_nat (length bs))) by lia.
  rewrite between_extend by lia. f_equal. unfold between.
  replace (Z.to_nat (base + Z.of_nat (length bs + 1) - (base + Z.of_nat (length bs)))) with 1%nat by lia.
  replace (Z.to_nat (base + Z.of_nat (length bs) - base)) with (length bs) by lia.
  rewrite skipn_app, skipn_all, Nat.sub_diag. reflexivity.
Qed.

Lemma between_shift : forall base bs base' a c, base <= base' <= a -> base' <= base + Z.of_nat (length bs) ->
  between base' (between base bs base' (base + Z.of_nat (length bs))) a c = between base bs a c.
Proof.
  intros base bs base' a c H1 H2. unfold between.
  rewrite (firstn_all2 (n := Z.to_nat (base + Z.of_nat (length bs) - base')))
    by (rewrite skipn_length; lia).
  rewrite skipn_add. do 2 f_equal. lia.
Qed.

(** ** The state of the files *)
Definition covered (closed : list (Z * Z)) (id : Z) : Prop :=
  exists c, In c closed /\ fst c <= id <= snd c.

Definition start_of (active : option (Z * bool * bool)) (next : Z) : Z :=
  match active with Some (s, _, _) => s | None => next end.

(** The closed files, the active file with whether it has a schema and an incomplete batch, and
    the batches from id [base]. Batches that are in no file are [ok]. *)
Record disk_inv (files : files_t) (closed : list (Z * Z)) (active : option (Z * bool * bool))
  (base : Z) (bs : list B) (ok : Z -> Prop) : Prop := {
  di_nodup : NoDup (map fst files);
  di_base : 0 <= base;
  di_start : base <= start_of active (base + Z.of_nat (length bs)) <= base + Z.of_nat (length bs);
  di_header : match active with Some (s, false, _) => s = base + Z.of_nat (length bs) | _ => True end;
  di_sorted : StronglySorted (fun c c' : Z * Z => snd c < fst c') closed;
  di_ranges : Forall (fun c => base <= fst c <= snd c
                /\ snd c < start_of active (base + Z.of_nat (length bs))) closed;
  di_cover : forall id, base <= id < start_of active (base + Z.of_nat (length bs)) ->
               covered closed id \/ ok id;
  di_closed : forall s e f, lookup files (ClosedFile s e) = Some f ->
                In (s, e) closed /\ f_header f = true /\ f_batches f = between base bs s (e + 1);
  di_found : forall s e, In (s, e) closed -> exists f, lookup files (ClosedFile s e) = Some f;
  di_active : forall s, lookup files (ActiveFile s)
                = match active with
                  | Some (s0, h, t) =>
                      if s =? s0
                      then Some (File h (between base bs s0 (base + Z.of_nat (length bs))) t) else None
                  | None => None
                  end }.

Notation next_of base bs := (base + Z.of_nat (length bs)) (only parsing).

Lemma disk_weaken : forall files closed active base bs (ok ok' : Z -> Prop),
  (forall id, ok id -> ok' id) -> disk_inv files closed active base bs ok ->
  disk_inv files closed active base bs ok'.
Proof.
  intros files closed active base bs ok ok' Hok [D1 D2 D3 D4 D5 D6 D7 D8 D9 D10].
  constructor; auto. intros id Hid. destruct (D7 id Hid); auto.
Qed.

Lemma disk_permutation : forall files files' closed active base bs ok, Permutation files' files ->
  disk_inv files closed active base bs ok -> disk_inv files' closed active base bs ok.
Proof.
  intros files files' closed active base bs ok Hp [D1 D2 D3 D4 D5 D6 D7 D8 D9 D10].
  constructor; auto.
  - apply (Permutation_NoDup (Permutation_map fst (Permutation_sym Hp)) D1).
  - intros s e f H. rewrite (lookup_permutation _ _ _ D1 Hp) in H. now apply D8.
  - intros s e H. rewrite (lookup_permutation _ _ _ D1 Hp). now apply D9.
  - intros s. rewrite (lookup_permutation _ _ _ D1 Hp). apply D10.
Qed.

(** Writing a batch. *)
Lemma disk_write : forall files closed s base bs ok b,
  disk_inv files closed (Some (s, true, false)) base bs ok ->
  exists files', apply_op files (WriteBatch (ActiveFile s) b) = Some files'
    /\ disk_inv files' closed (Some (s, true, false)) base (bs ++ [b]) ok.
Proof.
  intros files closed s base bs ok b [D1 D2 D3 D4 D5 D6 D7 D8 D9 D10]. cbn [start_of] in *.
  cbn [apply_op]. rewrite (D10 s), Z.eqb_refl. cbn [f_header f_batches f_torn].
  eexists. split; [reflexivity|].
  constructor; cbn [start_of]; auto.
  - now apply with_nodup.
  - rewrite app_length. cbn [length]. lia.
  - intros s' e f H. rewrite lookup_with in H. cbn [name_eqb] in H. destruct (D8 s' e f H) as (H1 & H2 & H3).
    split; [exact H1|]. split; [exact H2|]. rewrite between_extend; [exact H3| |];
      rewrite Forall_forall in D6; specialize (D6 _ H1); cbn [fst snd] in D6; lia.
  - intros s' e H. rewrite lookup_with. cbn [name_eqb]. now apply D9.
  - intros s'. rewrite lookup_with. cbn [name_eqb]. rewrite (Z.eqb_sym s s').
    destruct (s' =? s) eqn:E; [now rewrite between_append by lia|].
    rewrite (D10 s'), E. reflexivity.
Qed.

(** A part of a batch. *)
Lemma disk_tear : forall files closed s base bs ok b,
  disk_inv files closed (Some (s, true, false)) base bs ok ->
  disk_inv (tear files (Some (WriteBatch (ActiveFile s) b))) closed (Some (s, true, true)) base bs ok.
Proof.
  intros files closed s base bs ok b [D1 D2 D3 D4 D5 D6 D7 D8 D9 D10]. cbn [start_of] in *.
  cbn [tear]. rewrite (D10 s), Z.eqb_refl. cbn [f_header f_batches].
  constructor; cbn [start_of]; auto.
  - now apply with_nodup.
  - intros s' e f H. rewrite lookup_with in H. cbn [name_eqb] in H. now apply D8.
  - intros s' e H. rewrite lookup_with. cbn [name_eqb]. now apply D9.
  - intros s'. rewrite lookup_with. cbn [name_eqb]. rewrite (Z.eqb_sym s s').
    destruct (s' =? s) eqn:E; [reflexivity|]. rewrite (D10 s'), E. reflexivity.
Qed.

(** Closing the active file. *)
Lemma disk_close : forall files closed s t base bs ok,
  disk_inv files closed (Some (s, true, t)) base bs ok -> s < next_of base bs ->
  exists files', apply_op files (Rename (ActiveFile s) (ClosedFile s (next_of base bs - 1))) = Some files'
    /\ disk_inv files' (closed ++ [(s, next_of base bs - 1)]) None base bs ok.
Proof.
  intros files closed s t base bs ok [D1 D2 D3 D4 D5 D6 D7 D8 D9 D10] Hs. cbn [start_of] in *.
  cbn [apply_op]. rewrite (D10 s), Z.eqb_refl. eexists. split; [reflexivity|].
  rewrite Forall_forall in D6.
  constructor; cbn [start_of]; auto.
  - apply with_nodup. now apply without_nodup.
  - lia.
  - assert (Hl : Forall (fun c => snd c < s) closed).
    { apply Forall_forall. intros c Hc. now apply D6. }
    clear - D5 Hl. induction D5 as [|c closed D5 IH Hf]; [repeat constructor|]. cbn [app].
    apply Forall_cons_iff in Hl. destruct Hl as [Hc Hl]. constructor; [now apply IH|].
    apply Forall_app. split; [exact Hf|]. repeat constructor. exact Hc.
  - apply Forall_app. split.
    + apply Forall_forall. intros c Hc. specialize (D6 c Hc). lia.
    + repeat constructor; cbn [fst snd]; lia.
  - intros id Hid. destruct (Z_lt_le_dec id s) as [H|H].
    + destruct (D7 id) as [(c & Hc & Hc')|H']; [lia| |now right]. left. exists c.
      split; [apply in_or_app; now left|exact Hc'].
    + left. exists (s, next_of base bs - 1). split; [apply in_or_app; right; now left|].
      cbn [fst snd]. lia.
  - intros s' e f H. rewrite lookup_with, lookup_without in H. cbn [name_eqb] in H.
    destruct ((s =? s') && (next_of base bs - 1 =? e)) eqn:E.
    + apply andb_true_iff in E. destruct E as [E1 E2]. apply Z.eqb_eq in E1, E2. subst s' e.
      assert (Ef : f = File true (between base bs s (next_of base bs)) t) by congruence. subst f.
      cbn [f_header f_batches]. split; [apply in_or_app; right; now left|]. split; [reflexivity|].
      f_equal. lia.
    + destruct (D8 s' e f H) as (H1 & H2). split; [apply in_or_app; now left|exact H2].
  - intros s' e H. rewrite lookup_with, lookup_without. cbn [name_eqb].
    destruct ((s =? s') && (next_of base bs - 1 =? e)) eqn:E; [now eexists|].
    apply in_app_or in H. destruct H as [H|[H|[]]]; [now apply D9|].
    injection H as <- <-. rewrite !Z.eqb_refl in E. discriminate E.
  - intros s'. rewrite lookup_with, lookup_without. cbn [name_eqb]. rewrite (Z.eqb_sym s s').
    destruct (s' =? s) eqn:E; [reflexivity|]. now rewrite (D10 s'), E.
Qed.

(** Creating an active file. *)
Lemma disk_create : forall files closed base bs ok next, next = next_of base bs ->
  disk_inv files closed None base bs ok ->
  exists files', apply_op files (Create (ActiveFile next)) = Some files'
    /\ disk_inv files' closed (Some (next, false, false)) base bs ok.
Proof.
  intros files closed base bs ok next -> [D1 D2 D3 D4 D5 D6 D7 D8 D9 D10]. cbn [start_of] in *.
  cbn [apply_op]. eexists. split; [reflexivity|].
  constructor; cbn [start_of]; auto.
  - now apply with_nodup.
  - intros s' e f H. rewrite lookup_with in H. cbn [name_eqb] in H. now apply D8.
  - intros s' e H. rewrite lookup_with. cbn [name_eqb]. now apply D9.
  - intros s'. rewrite lookup_with. cbn [name_eqb]. rewrite (Z.eqb_sym _ s').
    destruct (s' =? next_of base bs) eqn:E; [|apply D10]. now rewrite between_empty by lia.
Qed.

Lemma disk_schema : forall files closed base bs ok next t, next = next_of base bs ->
  disk_inv files closed (Some (next, false, t)) base bs ok ->
  exists files', apply_op files (WriteHeader (ActiveFile next)) = Some files'
    /\ disk_inv files' closed (Some (next, true, t)) base bs ok.
Proof.
  intros files closed base bs ok next t -> [D1 D2 D3 D4 D5 D6 D7 D8 D9 D10]. cbn [start_of] in *.
  cbn [apply_op]. rewrite (D10 _), Z.eqb_refl. eexists. split; [reflexivity|]. cbn [f_batches f_torn].
  constructor; cbn [start_of]; auto.
  - now apply with_nodup.
  - intros s' e f H. rewrite lookup_with in H. cbn [name_eqb] in H. now apply D8.
  - intros s' e H. rewrite lookup_with. cbn [name_eqb]. now apply D9.
  - intros s'. rewrite lookup_with. cbn [name_eqb]. rewrite (Z.eqb_sym _ s').
    destruct (s' =? next_of base bs) eqn:E; [reflexivity|]. now rewrite D10, E.
Qed.

(** Removing a closed file. *)
Lemma sorted_nodup : forall closed, StronglySorted (fun c c' : Z * Z => snd c < fst c') closed ->
  Forall (fun c => fst c <= snd c) closed -> NoDup closed.
Proof.
  intros closed H Hr. induction H as [|c closed H IH Hf]; [constructor|].
  apply Forall_cons_iff in Hr. destruct Hr as [Hc Hr]. constructor; [|now apply IH].
  intros Hi. rewrite Forall_forall in Hf. specialize (Hf _ Hi). lia.
Qed.

Lemma disk_nodup_closed : forall files closed active base bs ok,
  disk_inv files closed active base bs ok -> NoDup closed.
Proof.
  intros files closed active base bs ok D. apply sorted_nodup; [apply (di_sorted _ _ _ _ _ _ D)|].
  eapply Forall_impl; [|apply (di_ranges _ _ _ _ _ _ D)]. cbv beta. intros; lia.
Qed.

Definition pair_eqb (a b : Z * Z) : bool := (fst a =? fst b) && (snd a =? snd b).
Lemma pair_eqb_eq : forall a b, pair_eqb a b = true <-> a = b.
Proof.
  intros [a b] [c d]. unfold pair_eqb. cbn [fst snd]. rewrite andb_true_iff, !Z.eqb_eq. split.
  - now intros [-> ->].
  - intros H. split; congruence.
Qed.

Lemma sorted_filter : forall p closed, StronglySorted (fun c c' : Z * Z => snd c < fst c') closed ->
  StronglySorted (fun c c' : Z * Z => snd c < fst c') (filter p closed).
Proof.
  intros p closed H. induction H as [|c closed H IH Hf]; [constructor|]. cbn [filter].
  destruct (p c); [|exact IH]. constructor; [exact IH|]. apply Forall_forall. intros x Hx.
  apply filter_In in Hx. rewrite Forall_forall in Hf. now apply Hf.
Qed.

Lemma disk_remove : forall files closed active base bs (ok : Z -> Prop) c,
  disk_inv files closed active base bs ok -> In c closed ->
  (forall id, fst c <= id <= snd c -> ok id) ->
  exists files', apply_op files (Remove (ClosedFile (fst c) (snd c))) = Some files'
    /\ disk_inv files' (filter (fun c' => negb (pair_eqb c' c)) closed) active base bs ok.
Proof.
  intros files closed active base bs ok [s e] [D1 D2 D3 D4 D5 D6 D7 D8 D9 D10] Hc Hok. cbn [fst snd] in *.
  cbn [apply_op]. destruct (D9 s e Hc) as [f Hf]. rewrite Hf. eexists. split; [reflexivity|].
  rewrite Forall_forall in D6.
  constructor; auto.
  - now apply without_nodup.
  - now apply sorted_filter.
  - apply Forall_forall. intros c' Hc'. apply filter_In in Hc'. now apply D6.
  - intros id Hid. destruct (D7 id Hid) as [(c' & Hc' & Hr)|H]; [|now right].
    destruct (pair_eqb c' (s, e)) eqn:E.
    + apply pair_eqb_eq in E. subst c'. right. now apply Hok.
    + left. exists c'. split; [|exact Hr]. apply filter_In. split; [exact Hc'|now rewrite E].
  - intros s' e' f' H. rewrite lookup_without in H. cbn [name_eqb] in H.
    destruct ((s =? s') && (e =? e')) eqn:E; [discriminate H|].
    destruct (D8 s' e' f' H) as [H1 H2]. split; [|exact H2]. apply filter_In. split; [exact H1|].
    destruct (pair_eqb (s', e') (s, e)) eqn:E'; [|reflexivity]. apply pair_eqb_eq in E'.
    injection E' as -> ->. rewrite !Z.eqb_refl in E. discriminate E.
  - intros s' e' H. apply filter_In in H. destruct H as [H H']. rewrite lookup_without. cbn [name_eqb].
    destruct ((s =? s') && (e =? e')) eqn:E; [|now apply D9].
    apply andb_true_iff in E. destruct E as [E1 E2]. apply Z.eqb_eq in E1, E2. subst s' e'.
    assert (X : pair_eqb (s, e) (s, e) = true) by now apply pair_eqb_eq. rewrite X in H'. discriminate H'.
  - intros s'. rewrite lookup_without. cbn [name_eqb]. apply D10.
Qed.

Definition remove_all (dels : list (Z * Z)) : list (fs_op B) :=
  map (fun s => Remove (ClosedFile (fst s) (snd s))) dels.

Lemma disk_remove_all : forall dels files closed active base bs (ok : Z -> Prop),
  disk_inv files closed active base bs ok -> NoDup dels -> incl dels closed ->
  (forall c id, In c dels -> fst c <= id <= snd c -> ok id) ->
  exists files', apply_ops files (remove_all dels) = Some files'
    /\ disk_inv files' (filter (fun c => negb (existsb (pair_eqb c) dels)) closed) active base bs ok.
Proof.
  induction dels as [|c dels IH]; intros files closed active base bs ok D Hn Hi Hok.
  - exists files. split; [reflexivity|].
    replace (filter _ closed) with closed; [exact D|]. clear. induction closed as [|c closed IH];
      [reflexivity|]. cbn [filter existsb negb]. f_equal. exact IH.
  - apply NoDup_cons_iff in Hn. destruct Hn as [Hc Hn].
    destruct (disk_remove files closed active base bs ok c D) as (files1 & E1 & D1).
    { apply Hi. now left. }
    { intros id. apply Hok. now left. }
    destruct (IH files1 (filter (fun c' => negb (pair_eqb c' c)) closed) active base bs ok D1 Hn)
      as (files2 & E2 & D2).
    { intros x Hx. apply filter_In. split; [apply Hi; now right|].
      destruct (pair_eqb x c) eqn:E; [|reflexivity]. apply pair_eqb_eq in E. congruence. }
    { intros x id Hx. apply Hok. now right. }
    exists files2. split.
    + unfold remove_all. cbn [map apply_ops]. rewrite E1. exact E2.
    + replace (filter (fun c0 => negb (existsb (pair_eqb c0) (c :: dels))) closed)
        with (filter (fun c0 => negb (existsb (pair_eqb c0) dels))
                (filter (fun c' => negb (pair_eqb c' c)) closed)); [exact D2|].
      clear. induction closed as [|x closed IH]; [reflexivity|]. cbn [filter existsb].
      destruct (pair_eqb x c); cbn [negb orb]; [exact IH|]. cbn [filter].
      destruct (existsb (pair_eqb x) dels); cbn [negb]; [exact IH|now f_equal].
Qed.

(** Truncating: the first closed file and then the active file. *)
Lemma disk_drop : forall files c closed active base bs ok,
  disk_inv files (c :: closed) active base bs ok ->
  exists files', apply_op files (Remove (ClosedFile (fst c) (snd c))) = Some files'
    /\ disk_inv files' closed active (snd c + 1) (between base bs (snd c + 1) (next_of base bs)) ok
    /\ exists gone, number base bs
       = gone ++ number (snd c + 1) (between base bs (snd c + 1) (next_of base bs)).
Proof.
  intros files [s e] closed active base bs ok [D1 D2 D3 D4 D5 D6 D7 D8 D9 D10]. cbn [fst snd] in *.
  cbn [apply_op]. destruct (D9 s e (or_introl eq_refl)) as [f Hf]. rewrite Hf.
  apply StronglySorted_inv in D5. destruct D5 as [D5 Df]. rewrite Forall_forall in Df.
  apply Forall_cons_iff in D6. destruct D6 as [Dc D6]. cbn [fst snd] in Dc. rewrite Forall_forall in D6.
  set (next := next_of base bs) in *.
  assert (Hs : start_of active next <= next) by lia.
  assert (Hl : Z.of_nat (length (between base bs (e + 1) next)) = next - (e + 1))
    by (apply between_length; unfold next in *; lia).
  assert (Hn : next_of (e + 1) (between base bs (e + 1) next) = next) by lia.
  eexists. split; [reflexivity|]. split.
  - constructor; rewrite ?Hn; auto.
    + now apply without_nodup.
    + lia.
    + lia.
    + apply Forall_forall. intros c Hc. specialize (D6 c Hc). specialize (Df c Hc). cbn [snd] in Df. lia.
    + intros id Hid. destruct (D7 id) as [(c & [<-|Hc] & Hr)|H]; [lia| | |now right].
      * cbn [fst snd] in Hr. lia.
      * left. now exists c.
    + intros s' e' f' H. rewrite lookup_without in H. cbn [name_eqb] in H.
      destruct ((s =? s') && (e =? e')) eqn:E; [discriminate H|].
      destruct (D8 s' e' f' H) as ([H1|H1] & H2 & H3).
      * injection H1 as -> ->. rewrite !Z.eqb_refl in E. discriminate E.
      * split; [exact H1|]. split; [exact H2|]. specialize (Df _ H1). specialize (D6 _ H1).
        cbn [fst snd] in Df, D6. unfold next. rewrite between_shift by (unfold next in *; lia). exact H3.
    + intros s' e' H. rewrite lookup_without. cbn [name_eqb]. specialize (Df _ H) as Hd.
      specialize (D6 _ H). cbn [fst snd] in Hd, D6.
      destruct ((s =? s') && (e =? e')) eqn:E; [|apply D9; now right].
      apply andb_true_iff in E. destruct E as [E1 E2]. apply Z.eqb_eq in E1, E2. lia.
    + intros s'. rewrite lookup_without. cbn [name_eqb]. rewrite D10.
      destruct active as [[[s0 h] t]|]; [|reflexivity]. cbn [start_of] in *.
      unfold next. rewrite between_shift by (unfold next in *; lia). reflexivity.
  - exists (number base (between base bs base (e + 1))).
    rewrite <- (between_all base bs) at 1. fold next.
    rewrite (between_split base bs base (e + 1) next) by lia. rewrite number_app.
    rewrite between_length by (unfold next in *; lia). do 2 f_equal. lia.
Qed.

Lemma disk_drop_active : forall files s h t base bs ok,
  disk_inv files [] (Some (s, h, t)) base bs ok ->
  exists files', apply_op files (Remove (ActiveFile s)) = Some files'
    /\ disk_inv files' [] None (next_of base bs) [] ok.
Proof.
  intros files s h t base bs ok [D1 D2 D3 D4 D5 D6 D7 D8 D9 D10]. cbn [start_of] in *.
  cbn [apply_op]. rewrite (D10 s), Z.eqb_refl. eexists. split; [reflexivity|].
  constructor; cbn [start_of length]; auto; try lia.
  - now apply without_nodup.
  - intros s' e' f' H. rewrite lookup_without in H. cbn [name_eqb] in H. destruct (D8 s' e' f' H) as [[] _].
  - intros s' e' [].
  - intros s'. rewrite lookup_without. cbn [name_eqb]. rewrite (Z.eqb_sym s s'), D10.
    destruct (s' =? s); reflexivity.
Qed.

(** Removing an active file without batches. *)
Lemma disk_remove_active : forall files closed s t base bs ok,
  disk_inv files closed (Some (s, true, t)) base bs ok -> s = next_of base bs ->
  exists files', apply_op files (Remove (ActiveFile s)) = Some files'
    /\ disk_inv files' closed None base bs ok.
Proof.
  intros files closed s t base bs ok [D1 D2 D3 D4 D5 D6 D7 D8 D9 D10] Hs. cbn [start_of] in *.
  cbn [apply_op]. rewrite (D10 s), Z.eqb_refl. eexists. split; [reflexivity|].
  subst s. constructor; cbn [start_of]; auto.
  - now apply without_nodup.
  - intros s' e' f' H. rewrite lookup_without in H. cbn [name_eqb] in H. now apply D8.
  - intros s' e' H. rewrite lookup_without. cbn [name_eqb]. now apply D9.
  - intros s'. rewrite lookup_without. cbn [name_eqb]. rewrite (Z.eqb_sym _ s'), D10.
    destruct (s' =? next_of base bs); reflexivity.
Qed.

(** Prefixes of lists of operations. *)
Lemma apply_app : forall ops ops' (files : files_t),
  apply_ops files (ops ++ ops')
  = match apply_ops files ops with Some files => apply_ops files ops' | None => None end.
Proof.
  induction ops as [|op ops IH]; intros ops' files; [reflexivity|]. cbn [app apply_ops].
  destruct (apply_op files op); [apply IH|reflexivity].
Qed.

End WalFiles.
