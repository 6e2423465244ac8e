(** Splitting batches into time series. *)
From Coq Require Import ZArith Bool Lia List Sorting.Sorted Sorting.Permutation.
From Verif Require Import Model.Base Model.Float Model.ErrorBound Model.Segments Model.Multivariate
  Spec.TimestampsSpec Spec.SegmentsSpec Spec.MultivariateSpec Proofs.SegmentsProofs Proofs.RestoreProofs.
Import ListNotations.
Open Scope Z_scope.

(** ** Lists of outcomes *)
Lemma map_outcome_ok : forall (A B : Type) (f : A -> outcome B) l bs,
  map_outcome f l = Ok bs <-> Forall2 (fun a b => f a = Ok b) l bs.
Proof.
  intros A B f l. induction l as [|a l IH]; intros bs; cbn [map_outcome].
  - split; intros H.
    + injection H as <-. constructor.
    + inversion H. reflexivity.
  - split; intros H.
    + destruct (f a) as [b| |] eqn:E; try discriminate H. cbn [bind] in H.
      destruct (map_outcome f l) as [bs'| |] eqn:E'; try discriminate H. cbn [bind] in H.
      injection H as <-. constructor; [exact E|]. now apply IH.
    + inversion H as [|? b ? bs' Hb Hr]; subst. rewrite Hb. cbn [bind].
      apply IH in Hr. rewrite Hr. reflexivity.
Qed.

Lemma map_outcome_exists : forall (A B : Type) (f : A -> outcome B) l,
  (forall a, In a l -> exists b, f a = Ok b) -> exists bs, map_outcome f l = Ok bs.
Proof.
  intros A B f l. induction l as [|a l IH]; intros H; [now exists []|].
  destruct (H a (or_introl eq_refl)) as [b Hb].
  destruct IH as [bs Hbs]; [intros x Hx; apply H; now right|].
  exists (b :: bs). cbn [map_outcome]. now rewrite Hb, Hbs.
Qed.

Lemma tag_value_some : forall r c s, tag_value r c = Ok s <-> nth_error r c = Some (Tag s).
Proof.
  intros r c s. unfold tag_value. destruct (nth_error r c) as [[| |]|]; split; intros H;
    try discriminate H; congruence.
Qed.
Lemma time_value_some : forall r c s, time_value r c = Ok s <-> nth_error r c = Some (Time s).
Proof.
  intros r c s. unfold time_value. destruct (nth_error r c) as [[| |]|]; split; intros H;
    try discriminate H; congruence.
Qed.
Lemma field_value_some : forall r c s, field_value r c = Ok s <-> nth_error r c = Some (Value s).
Proof.
  intros r c s. unfold field_value. destruct (nth_error r c) as [[| |]|]; split; intros H;
    try discriminate H; congruence.
Qed.

Lemma read_tags : forall t r tags,
  map_outcome (tag_value r) (tag_column_indices t) = Ok tags <-> tags_are t r tags.
Proof.
  intros t r tags. rewrite map_outcome_ok. unfold tags_are.
  generalize (tag_column_indices t) as cs. intros cs. revert tags.
  induction cs as [|c cs IH]; intros [|s tags]; cbn [map]; split; intros H;
    try solve [inversion H]; try constructor; try discriminate H.
  - inversion H; subst. f_equal; [now apply tag_value_some|now apply IH].
  - apply tag_value_some. congruence.
  - apply IH. congruence.
Qed.

Lemma tags_unique : forall t r a b, tags_are t r a -> tags_are t r b -> a = b.
Proof. intros t r a b Ha Hb. apply read_tags in Ha, Hb. congruence. Qed.
Lemma tags_length : forall t r a, tags_are t r a -> length a = length (tag_column_indices t).
Proof.
  intros t r a H. unfold tags_are in H. apply (f_equal (@length _)) in H.
  rewrite !map_length in H. lia.
Qed.

(** ** Order *)
Lemma lex_asymmetric : forall (A : Type) (less : A -> A -> Prop),
  (forall a b, less a b -> less b a -> False) ->
  forall k l, lexicographic less k l -> lexicographic less l k -> False.
Proof.
  intros A less Ha k l H. induction H as [b l|a b k l H|a k l H IH]; intros H'.
  - inversion H'.
  - inversion H'; subst; eauto.
  - inversion H'; subst; eauto.
Qed.

Lemma cell_less_asymmetric : forall a b, cell_less a b -> cell_less b a -> False.
Proof.
  intros [s|t|v] [s'|t'|v'] H H'; cbn [cell_less] in *; try contradiction; [|lia].
  revert H H'. apply lex_asymmetric. intros; lia.
Qed.

Lemma sort_key_is : forall t r tags time, tags_are t r tags -> time_is t r time ->
  sort_key t r = map Tag tags ++ [Time time].
Proof.
  intros t r tags time Ht Hm. unfold sort_key. rewrite map_app. f_equal.
  - unfold tags_are in Ht. revert tags Ht. generalize (tag_column_indices t) as cs.
    induction cs as [|c cs IH]; intros [|s tags] H; cbn [map] in *; try discriminate H; [reflexivity|].
    assert (H1 : nth_error r c = Some (Tag s)) by congruence.
    assert (H2 : map (nth_error r) cs = map (fun s => Some (Tag s)) tags) by congruence.
    f_equal; [now apply nth_error_nth|now apply IH].
  - cbn [map]. f_equal. now apply nth_error_nth.
Qed.

Lemma key_le_split : forall a b x y, length a = length b ->
  key_le (map Tag a ++ [Time x]) (map Tag b ++ [Time y]) ->
  a = b /\ x <= y \/ lexicographic cell_less (map Tag a) (map Tag b).
Proof.
  intros a b x y Hl [H|H].
  - left. apply app_inj_tail in H. destruct H as [H1 H2]. split; [|injection H2 as ->; lia].
    clear - H1. revert b H1. induction a as [|s a IH]; intros [|s' b] H; cbn [map] in H;
      try discriminate H; [reflexivity|]. f_equal; [congruence|apply IH; congruence].
  - revert b Hl H. induction a as [|s a IH]; intros [|s' b] Hl H; try discriminate Hl.
    + cbn [map app] in H. left. split; [reflexivity|]. inversion H as [|? ? ? ? L|? ? ? L]; subst.
      * cbn [cell_less] in L. lia.
      * inversion L.
    + cbn [map app] in H. inversion H as [|? ? ? ? L|? ? ? L]; subst.
      * right. cbn [map]. now apply lex_head.
      * destruct (IH b (f_equal pred Hl) L) as [[-> Hx]|Hx]; [now left|right].
        cbn [map]. now apply lex_tail.
Qed.

(** ** Sorting *)
Lemma permutation_map_nth : forall (A : Type) (d : A) l, map (fun i => nth i l d) (seq 0 (length l)) = l.
Proof.
  intros A d l. induction l as [|a l IH] using rev_ind; [reflexivity|].
  rewrite app_length. cbn [length]. rewrite Nat.add_1_r, seq_S, map_app. cbn [map].
  rewrite Nat.add_0_l, app_nth2, Nat.sub_diag by lia. f_equal.
  rewrite <- IH at 2. apply map_ext_in. intros i Hi. apply in_seq in Hi. now rewrite app_nth1 by lia.
Qed.

Lemma sort_rows_sorted : forall lexsort t rows, sorts lexsort -> Forall (row_of t) rows ->
  Permutation (sort_rows lexsort t rows) rows
  /\ StronglySorted (fun r r' => key_le (sort_key t r) (sort_key t r')) (sort_rows lexsort t rows).
Proof.
  intros lexsort t rows Hs Hr. set (keys := map (sort_key t) rows).
  assert (Hc : comparable keys).
  { intros k l Hk Hl. apply in_map_iff in Hk, Hl.
    destruct Hk as (r & <- & Hr1), Hl as (r' & <- & Hr2). rewrite Forall_forall in Hr.
    destruct (Hr _ Hr1) as ([a Ha] & [x Hx] & _), (Hr _ Hr2) as ([b Hb] & [y Hy] & _).
    rewrite (sort_key_is _ _ _ _ Ha Hx), (sort_key_is _ _ _ _ Hb Hy).
    assert (El : length a = length b)
      by (rewrite (tags_length _ _ _ Ha), (tags_length _ _ _ Hb); reflexivity).
    clear - El. apply Forall2_app; [|repeat constructor]. revert b El.
    induction a as [|s a IH]; intros [|s' b] El; try discriminate El; cbn [map]; constructor;
      [exact I|]. apply IH. exact (f_equal pred El). }
  destruct (Hs keys Hc) as [Hp Hk].
  assert (Hlen : length keys = length rows) by apply map_length. rewrite Hlen in Hp.
  unfold sort_rows. fold keys. split.
  - eapply Permutation_trans; [apply Permutation_map, Hp|]. rewrite permutation_map_nth. apply Permutation_refl.
  - assert (Hi : Forall (fun i => (i < length rows)%nat) (lexsort keys)).
    { apply Forall_forall. intros i Hi. apply (Permutation_in _ Hp) in Hi. apply in_seq in Hi. lia. }
    revert Hi Hk. generalize (lexsort keys) as is. intros is. induction is as [|i is IH]; intros Hi Hk;
      [constructor|]. cbn [map] in *. apply StronglySorted_inv in Hk. destruct Hk as [Hk Hf].
    apply Forall_cons_iff in Hi. destruct Hi as [Hi His].
    constructor; [now apply IH|]. apply Forall_forall. intros r' Hr'. apply in_map_iff in Hr'.
    destruct Hr' as (j & <- & Hj). rewrite Forall_forall in Hf, His.
    assert (Hk' : forall i, (i < length rows)%nat -> nth i keys [] = sort_key t (nth i rows [])).
    { intros k Hk'. unfold keys. rewrite (nth_indep (map (sort_key t) rows) [] (sort_key t []))
        by (rewrite map_length; exact Hk'). apply map_nth. }
    specialize (Hf _ (in_map (fun i => nth i keys []) _ _ Hj)). cbn beta in Hf.
    rewrite (Hk' i Hi), (Hk' j (His j Hj)) in Hf. exact Hf.
Qed.

(** ** The loop *)
Definition group : Type := list text * list row.

Lemma differs : forall a b, length a = length b ->
  existsb (fun p => negb (text_eqb (fst p) (snd p))) (combine a b) = false <-> a = b.
Proof.
  induction a as [|s a IH]; intros [|s' b] Hl; try discriminate Hl; [now split|].
  cbn [combine existsb fst snd]. rewrite orb_false_iff, (IH b (f_equal pred Hl)). unfold text_eqb.
  destruct (list_eq_dec Z.eq_dec s s') as [E|E]; cbn [negb].
  - subst. split; [now intros [_ ->]|]. intros H. split; [reflexivity|congruence].
  - split; [now intros [H _]|]. intros H. congruence.
Qed.

Lemma loop_groups : forall P t sorted rest row_index row_index_start tags before current,
  sorted = before ++ current ++ rest -> row_index_start = length before ->
  row_index = (length before + length current)%nat ->
  Forall (fun r => tags_are t r tags) current -> Forall (row_of t) rest ->
  length tags = length (tag_column_indices t) ->
  exists more groups,
    split_loop P t sorted rest row_index row_index_start tags
    = (let? l := map_outcome (fun g => split_and_compress P t (snd g) (fst g))
                   ((tags, current ++ more) :: groups) in Ok (concat l))
    /\ more ++ concat (map snd groups) = rest
    /\ Forall (fun g => Forall (fun r => tags_are t r (fst g)) (snd g)) ((tags, current ++ more) :: groups)
    /\ Forall (fun g => snd g <> []) groups
    /\ Sorted (fun g g' => fst g <> fst g') ((tags, current ++ more) :: groups).
Proof.
  intros P t sorted rest. induction rest as [|r rest IH];
    intros row_index start tags before current Hs Hb Hi Hc Hr Hl; cbn [split_loop].
  - exists [], []. rewrite !app_nil_r in *. subst start. split; [|repeat split; auto].
    + unfold slice. rewrite Hs, app_length, skipn_app, skipn_all, Nat.sub_diag. cbn [skipn app].
      replace (length before + length current - length before)%nat with (length current) by lia.
      rewrite firstn_all. cbn [map_outcome fst snd].
      destruct (split_and_compress P t current tags); cbn [bind concat]; rewrite ?app_nil_r; reflexivity.
  - apply Forall_cons_iff in Hr. destruct Hr as [Hr Hrs]. destruct Hr as ([rt Hrt] & Hr).
    rewrite (proj2 (read_tags t r rt) Hrt). cbn [bind].
    assert (Hl' : length tags = length rt) by (rewrite (tags_length _ _ _ Hrt); exact Hl).
    destruct (existsb (fun p => negb (text_eqb (fst p) (snd p))) (combine tags rt)) eqn:D.
    + assert (Hd : tags <> rt).
      { intros E. apply (differs tags rt Hl') in E. congruence. }
      destruct (IH (S row_index) row_index rt (before ++ current) [r]) as (more & groups & E & H1 & H2 & H3 & H4).
      { rewrite Hs, <- app_assoc. reflexivity. }
      { rewrite app_length. exact Hi. }
      { rewrite app_length. cbn [length]. lia. }
      { repeat constructor. exact Hrt. }
      { exact Hrs. }
      { rewrite (tags_length _ _ _ Hrt). reflexivity. }
      exists [], ((rt, [r] ++ more) :: groups). rewrite app_nil_r. split; [|split; [|split; [|split]]].
      * rewrite E. clear E IH.
        replace (slice sorted start (row_index - start)) with current.
        2: { unfold slice. rewrite Hs, Hb, Hi, skipn_app, skipn_all, Nat.sub_diag. cbn [skipn app].
             replace (length before + length current - length before)%nat with (length current) by lia.
             rewrite firstn_app, firstn_all, Nat.sub_diag. cbn [firstn]. now rewrite app_nil_r. }
        set (rest_groups := (rt, [r] ++ more) :: groups).
        cbn [map_outcome fst snd].
        destruct (split_and_compress P t current tags); cbn [bind]; [|reflexivity|reflexivity].
        destruct (map_outcome _ rest_groups); cbn [bind concat]; reflexivity.
      * cbn [map snd concat app]. now rewrite H1.
      * now apply Forall_cons.
      * apply Forall_cons; [|exact H3]. cbn [snd app]. discriminate.
      * constructor; [exact H4|]. constructor. exact Hd.
    + apply (differs tags rt Hl') in D. subst rt.
      destruct (IH (S row_index) start tags before (current ++ [r])) as (more & groups & E & H1 & H2 & H3 & H4).
      { rewrite Hs, <- app_assoc. reflexivity. }
      { exact Hb. }
      { rewrite app_length. cbn [length]. lia. }
      { apply Forall_app. split; [exact Hc|]. repeat constructor. exact Hrt. }
      { exact Hrs. }
      { exact Hl. }
      exists (r :: more), groups. rewrite <- app_assoc in E, H2, H4.
      split; [exact E|]. split; [cbn [app]; now rewrite H1|]. split; [exact H2|].
      split; [exact H3|exact H4].
Qed.

(** ** The groups of sorted rows *)
Definition row_le (t : table) (r r' : row) : Prop := key_le (sort_key t r) (sort_key t r').

Lemma sorted_app_inv : forall (A : Type) (R : A -> A -> Prop) k l, StronglySorted R (k ++ l) ->
  StronglySorted R k /\ StronglySorted R l /\ forall a b, In a k -> In b l -> R a b.
Proof.
  intros A R k l. induction k as [|a k IH]; intros H; cbn [app] in H.
  - split; [constructor|]. split; [exact H|]. intros a b [].
  - apply StronglySorted_inv in H. destruct H as [H Hf]. destruct (IH H) as (H1 & H2 & H3).
    apply Forall_app in Hf. destruct Hf as [Hf1 Hf2]. split; [now constructor|]. split; [exact H2|].
    intros x b [->|Hx] Hb; [|now apply H3]. rewrite Forall_forall in Hf2. now apply Hf2.
Qed.

Lemma row_le_tags : forall t r r' a b, row_of t r -> row_of t r' -> tags_are t r a -> tags_are t r' b ->
  row_le t r r' -> a = b \/ lexicographic cell_less (map Tag a) (map Tag b).
Proof.
  intros t r r' a b (_ & [x Hx] & _) (_ & [y Hy] & _) Ha Hb H. unfold row_le in H.
  rewrite (sort_key_is _ _ _ _ Ha Hx), (sort_key_is _ _ _ _ Hb Hy) in H.
  apply key_le_split in H; [|rewrite (tags_length _ _ _ Ha), (tags_length _ _ _ Hb); reflexivity].
  destruct H as [[H _]|H]; auto.
Qed.

Lemma groups_distinct : forall t groups,
  StronglySorted (row_le t) (concat (map snd groups)) ->
  Forall (row_of t) (concat (map snd groups)) ->
  Forall (fun g : group => Forall (fun r => tags_are t r (fst g)) (snd g)) groups ->
  Forall (fun g : group => snd g <> []) groups ->
  Sorted (fun g g' : group => fst g <> fst g') groups -> NoDup (map fst groups).
Proof.
  intros t groups. induction groups as [|g groups IH]; intros Hs Hr Ht Hn Ha; [constructor|].
  cbn [map concat] in *. apply sorted_app_inv in Hs. destruct Hs as (_ & Hs & Hle).
  apply Forall_app in Hr. destruct Hr as [Hrg Hr].
  apply Forall_cons_iff in Ht, Hn. destruct Ht as [Htg Ht], Hn as [Hng Hn].
  apply Sorted_inv in Ha. destruct Ha as [Ha Had].
  constructor; [|now apply IH].
  intros Hin. apply in_map_iff in Hin. destruct Hin as (g2 & E & Hg2).
  destruct groups as [|g1 groups]; [destruct Hg2|].
  apply HdRel_inv in Had. destruct Hg2 as [->|Hg2]; [congruence|].
  destruct g as [a ra], g1 as [b rb], g2 as [c rc]. cbn [fst snd map concat] in *. subst c.
  destruct ra as [|r ra]; [congruence|]. apply Forall_cons_iff in Hn. destruct Hn as [Hnb Hn].
  destruct rb as [|r1 rb]; [cbn [snd] in Hnb; congruence|].
  rewrite Forall_forall in Hn. specialize (Hn _ Hg2) as Hnc. destruct rc as [|r2 rc]; [cbn [snd] in Hnc; congruence|].
  apply Forall_cons_iff in Ht. destruct Ht as [Htb Ht]. rewrite Forall_forall in Ht. specialize (Ht _ Hg2).
  cbn [fst snd] in *. apply Forall_cons_iff in Htg, Htb, Ht.
  destruct Htg as [T0 _], Htb as [T1 _], Ht as [T2 _].
  assert (I2 : In r2 (concat (map snd groups))).
  { apply in_concat. exists (r2 :: rc). split; [|now left]. apply in_map_iff. now exists (a, r2 :: rc). }
  apply Forall_cons_iff in Hrg. destruct Hrg as [R0 _].
  apply Forall_app in Hr. destruct Hr as [R1 R2]. apply Forall_cons_iff in R1. destruct R1 as [R1 _].
  rewrite Forall_forall in R2. specialize (R2 _ I2).
  apply sorted_app_inv in Hs. destruct Hs as (_ & _ & Hle2).
  specialize (Hle r r1 (or_introl eq_refl) (or_introl eq_refl)) as L1.
  specialize (Hle2 r1 r2 (or_introl eq_refl) I2) as L2.
  destruct (row_le_tags _ _ _ _ _ R0 R1 T0 T1 L1) as [->|X1]; [congruence|].
  destruct (row_le_tags _ _ _ _ _ R1 R2 T1 T2 L2) as [->|X2]; [congruence|].
  exact (lex_asymmetric _ _ cell_less_asymmetric _ _ X1 X2).
Qed.

Lemma group_times_sorted : forall t tags rows times, StronglySorted (row_le t) rows ->
  Forall (fun r => tags_are t r tags) rows -> Forall2 (time_is t) rows times -> StronglySorted Z.le times.
Proof.
  intros t tags rows times Hs Ht H. induction H as [|r x rows times Hx H IH]; [constructor|].
  apply StronglySorted_inv in Hs. destruct Hs as [Hs Hf]. apply Forall_cons_iff in Ht.
  destruct Ht as [Hr Ht]. constructor; [now apply IH|]. clear IH Hs.
  induction H as [|r' y rows times Hy H IH]; [constructor|].
  apply Forall_cons_iff in Hf, Ht. destruct Hf as [Hf Hfs], Ht as [Hr' Ht].
  constructor; [|now apply IH]. unfold row_le in Hf.
  rewrite (sort_key_is _ _ _ _ Hr Hx), (sort_key_is _ _ _ _ Hr' Hy) in Hf.
  apply key_le_split in Hf; [|reflexivity]. destruct Hf as [[_ Hf]|Hf]; [exact Hf|].
  destruct (lex_asymmetric _ _ cell_less_asymmetric _ _ Hf Hf).
Qed.

(** The groups of a batch. *)
Lemma multivariate_groups : forall P lexsort t batch, sorts lexsort -> Forall (row_of t) batch ->
  batch <> [] ->
  exists groups : list group,
    compress_multivariate P lexsort t batch
    = (let? l := map_outcome (fun g => split_and_compress P t (snd g) (fst g)) groups in Ok (concat l))
    /\ Permutation (concat (map snd groups)) batch
    /\ StronglySorted (row_le t) (concat (map snd groups))
    /\ Forall (fun g => Forall (fun r => tags_are t r (fst g)) (snd g)) groups
    /\ Forall (fun g => snd g <> []) groups
    /\ NoDup (map fst groups).
Proof.
  intros P lexsort t batch Hs Hr Hn.
  destruct (sort_rows_sorted lexsort t batch Hs Hr) as [Hp Hss].
  unfold compress_multivariate. set (sorted := sort_rows lexsort t batch) in *.
  destruct sorted as [|r rest] eqn:E.
  { destruct Hn. now apply Permutation_nil. }
  assert (Hr' : Forall (row_of t) (r :: rest)).
  { apply Forall_forall. intros x Hx. rewrite Forall_forall in Hr. apply Hr.
    now apply (Permutation_in _ Hp). }
  apply Forall_cons_iff in Hr' as Hrr. destruct Hrr as [([tags Ht] & Hr1) Hr2].
  rewrite (proj2 (read_tags t r tags) Ht). cbn [bind].
  (* The first row is never of a new time series. *)
  assert (E1 : split_loop P t (r :: rest) (r :: rest) 0 0 tags
               = split_loop P t (r :: rest) rest 1 0 tags).
  { cbn [split_loop]. rewrite (proj2 (read_tags t r tags) Ht). cbn [bind].
    rewrite (proj2 (differs tags tags eq_refl) eq_refl). reflexivity. }
  rewrite E1.
  destruct (loop_groups P t (r :: rest) rest 1 0 tags [] [r]) as (more & groups & EE & H1 & H2 & H3 & H4).
  { reflexivity. }
  { reflexivity. }
  { reflexivity. }
  { repeat constructor. exact Ht. }
  { exact Hr2. }
  { apply (tags_length _ _ _ Ht). }
  exists ((tags, [r] ++ more) :: groups).
  assert (Hc : concat (map snd ((tags, [r] ++ more) :: groups)) = r :: rest).
  { cbn [map snd concat app]. now rewrite H1. }
  assert (H3' : Forall (fun g : group => snd g <> []) ((tags, [r] ++ more) :: groups)).
  { apply Forall_cons; [discriminate|exact H3]. }
  rewrite Hc. split; [exact EE|]. split; [exact Hp|]. split; [exact Hss|].
  split; [exact H2|]. split; [exact H3'|].
  apply (groups_distinct t); auto; rewrite Hc; [exact Hss|exact Hr'].
Qed.

Lemma Forall2_concat : forall (A B C : Type) (R : A -> C -> Prop) (f : B -> list A) bs css,
  Forall2 (fun b cs => Forall2 R (f b) cs) bs css -> Forall2 R (concat (map f bs)) (concat css).
Proof.
  intros A B C R f bs css H. induction H; [constructor|]. cbn [map concat]. now apply Forall2_app.
Qed.

Lemma list_prod_concat : forall (A B : Type) (l : list A) (l' : list B),
  list_prod l l' = concat (map (fun a => map (fun b => (a, b)) l') l).
Proof. intros A B l l'. induction l as [|a l IH]; [reflexivity|]. cbn [list_prod map concat]. now rewrite IH. Qed.

Lemma Forall2_map_left : forall (A B C : Type) (f : A -> B) (R : B -> C -> Prop) l cs,
  Forall2 (fun a c => R (f a) c) l cs -> Forall2 R (map f l) cs.
Proof. intros A B C f R l cs H. induction H; constructor; auto. Qed.

Lemma Forall2_impl_in : forall (A B : Type) (R S : A -> B -> Prop) l k,
  (forall a b, In a l -> R a b -> S a b) -> Forall2 R l k -> Forall2 S l k.
Proof.
  intros A B R S l k Hi H. induction H as [|a b l k Hab H IH]; constructor.
  - apply Hi; [now left|exact Hab].
  - apply IH. intros x y Hx. apply Hi. now right.
Qed.

Lemma multivariate_splits : forall P lexsort t batch result, sorts lexsort ->
  Forall (row_of t) batch -> batch <> [] ->
  compress_multivariate P lexsort t batch = Ok result -> splits P t batch result.
Proof.
  intros P lexsort t batch result Hs Hr Hn H.
  destruct (multivariate_groups P lexsort t batch Hs Hr Hn) as (groups & E & Hp & Hss & Ht & Hne & Hd).
  rewrite E in H. clear E.
  destruct (map_outcome (fun g => split_and_compress P t (snd g) (fst g)) groups) as [l| |] eqn:El; try discriminate H. cbn [bind] in H.
  assert (result = concat l) by congruence. subst result. clear H.
  apply map_outcome_ok in El.
  exists (map fst groups). split; [exact Hd|]. split.
  - intros tags. split.
    + intros Hi. apply in_map_iff in Hi. destruct Hi as ([a rows] & <- & Hg). cbn [fst].
      rewrite Forall_forall in Hne, Ht. specialize (Hne _ Hg). specialize (Ht _ Hg). cbn [fst snd] in *.
      destruct rows as [|r rows]; [congruence|]. exists r. apply Forall_cons_iff in Ht.
      split; [|tauto]. apply (Permutation_in _ Hp). apply in_concat. exists (r :: rows).
      split; [|now left]. apply in_map_iff. now exists (a, r :: rows).
    + intros (r & Hi & Hrt). apply (Permutation_in _ (Permutation_sym Hp)) in Hi.
      apply in_concat in Hi. destruct Hi as (rows & Hrows & Hi). apply in_map_iff in Hrows.
      destruct Hrows as ([a rows'] & E & Hg). cbn [snd] in E. subst rows'.
      apply in_map_iff. exists (a, rows). split; [|exact Hg]. cbn [fst].
      rewrite Forall_forall in Ht. specialize (Ht _ Hg). cbn [fst snd] in Ht.
      rewrite Forall_forall in Ht. specialize (Ht _ Hi). now apply (tags_unique t r).
  - rewrite list_prod_concat, map_map. apply Forall2_concat.
    apply (Forall2_impl_in _ _ (fun g cs => split_and_compress P t (snd g) (fst g) = Ok cs)); [|exact El].
    intros [tags rows] cs Hg Hc. cbn [fst snd] in *. apply Forall2_map_left. cbn [fst snd].
    unfold split_and_compress in Hc.
    destruct (map_outcome (fun r => time_value r (timestamp_column_index t)) rows) as [times| |] eqn:Em; try discriminate Hc. cbn [bind] in Hc.
    apply map_outcome_ok in Hc.
    assert (Hrows : Forall (fun r => tags_are t r tags) rows)
      by (rewrite Forall_forall in Ht; exact (Ht _ Hg)).
    assert (Htimes : Forall2 (time_is t) rows times).
    { apply map_outcome_ok in Em. revert Em. apply Forall2_impl_in. intros r x _. apply time_value_some. }
    destruct (in_split _ _ Hg) as (g1 & g2 & Eg).
    assert (Hsr : StronglySorted (row_le t) rows).
    { rewrite Eg, map_app, concat_app in Hss. cbn [map concat snd] in Hss.
      apply sorted_app_inv in Hss. destruct Hss as (_ & Hss & _).
      now apply sorted_app_inv in Hss. }
    revert Hc. apply Forall2_impl_in. intros field c Hf Hc.
    destruct (map_outcome (fun r => field_value r field) rows) as [values| |] eqn:Ev; try discriminate Hc. cbn [bind] in Hc.
    destruct (nth_error (error_bounds t) field) as [eb|] eqn:Eb; try discriminate Hc. cbn [bind] in Hc.
    destruct (compress_univariate P eb times values) as [segments| |] eqn:Ec; try discriminate Hc.
    assert (c = Compressed tags field segments) by congruence. subst c.
    split; [reflexivity|]. split; [reflexivity|].
    exists (concat (map snd g1) ++ concat (map snd g2)), rows, times, values, eb.
    split.
    { rewrite <- Hp, Eg, map_app, concat_app. cbn [map concat snd].
      rewrite Permutation_app_comm, <- app_assoc. apply Permutation_app_head.
      apply Permutation_app_comm. }
    split; [exact Hrows|]. split.
    { apply Forall_forall. intros r Hi Hrt.
      assert (Hi' : exists g', In g' (g1 ++ g2) /\ In r (snd g')).
      { rewrite <- concat_app, <- map_app in Hi. apply in_concat in Hi.
        destruct Hi as (rs & Hrs & Hi). apply in_map_iff in Hrs. destruct Hrs as (g' & <- & Hg').
        now exists g'. }
      destruct Hi' as ([a rs] & Hg' & Hi'). cbn [snd] in Hi'.
      assert (Hin : In (a, rs) groups).
      { rewrite Eg. apply in_app_or in Hg'. apply in_or_app. cbn [In]. tauto. }
      rewrite Forall_forall in Ht. specialize (Ht _ Hin). cbn [fst snd] in Ht.
      rewrite Forall_forall in Ht. specialize (Ht _ Hi').
      assert (a = tags) by now apply (tags_unique t r). subst a.
      rewrite Eg, map_app in Hd. cbn [map fst] in Hd. apply NoDup_remove_2 in Hd. apply Hd.
      rewrite <- map_app. apply in_map_iff. now exists (tags, rs). }
    split; [exact Htimes|]. split; [now apply (group_times_sorted t tags rows)|].
    split.
    { apply map_outcome_ok in Ev. revert Ev. apply Forall2_impl_in. intros r x _. apply field_value_some. }
    split; [exact Eb|exact Ec].
Qed.

(** ** No panic *)
Lemma ordpairs_app : forall (A : Type) (R : A -> A -> Prop) k l, ForallOrdPairs R (k ++ l) ->
  ForallOrdPairs R k /\ ForallOrdPairs R l.
Proof.
  intros A R k l. induction k as [|a k IH]; intros H; [split; [constructor|exact H]|].
  cbn [app] in H. inversion H as [|? ? Hf Hr]; subst. apply Forall_app in Hf.
  destruct (IH Hr) as [H1 H2]. split; [|exact H2]. constructor; tauto.
Qed.

Lemma ordpairs_permutation : forall (A : Type) (R : A -> A -> Prop), (forall a b, R a b -> R b a) ->
  forall k l, Permutation k l -> ForallOrdPairs R k -> ForallOrdPairs R l.
Proof.
  intros A R Hsym k l H. induction H as [|a k l H IH|a b l|k l m H1 IH1 H2 IH2]; intros Hk.
  - constructor.
  - inversion Hk as [|? ? Hf Hr]; subst. constructor; [|now apply IH].
    apply Forall_forall. intros x Hx. rewrite Forall_forall in Hf. apply Hf.
    now apply (Permutation_in _ (Permutation_sym H)).
  - inversion Hk as [|? ? Hf Hr]; subst. inversion Hr as [|? ? Hf' Hr']; subst.
    apply Forall_cons_iff in Hf. constructor; [constructor; [apply Hsym; tauto|exact Hf']|].
    constructor; tauto.
  - auto.
Qed.

Lemma multivariate_ok : forall P lexsort t batch, sorts lexsort -> Forall (row_of t) batch ->
  batch <> [] -> bounded t -> distinct_rows t batch ->
  Forall (fun r => forall time, time_is t r time -> is_i64 time) batch ->
  Z.of_nat (length batch) < 2 ^ 63 ->
  exists result, compress_multivariate P lexsort t batch = Ok result /\ splits P t batch result.
Proof.
  intros P lexsort t batch Hs Hr Hn Hb Hd Hi Hl.
  destruct (multivariate_groups P lexsort t batch Hs Hr Hn) as (groups & E & Hp & Hss & Ht & Hne & _).
  assert (Hex : exists l, map_outcome (fun g => split_and_compress P t (snd g) (fst g)) groups = Ok l).
  { apply map_outcome_exists. intros [tags rows] Hg. cbn [fst snd].
    destruct (in_split _ _ Hg) as (g1 & g2 & Eg).
    rewrite Forall_forall in Ht, Hne. specialize (Ht _ Hg). specialize (Hne _ Hg). cbn [fst snd] in *.
    assert (Hin : forall r, In r rows -> In r batch).
    { intros r Hx. apply (Permutation_in _ Hp). apply in_concat. exists rows. split; [|exact Hx].
      apply in_map_iff. now exists (tags, rows). }
    assert (Hro : forall r, In r rows -> row_of t r).
    { intros r Hx. rewrite Forall_forall in Hr. now apply Hr, Hin. }
    unfold split_and_compress.
    destruct (map_outcome_exists _ _ (fun r => time_value r (timestamp_column_index t)) rows)
      as [times Em].
    { intros r Hx. destruct (Hro r Hx) as (_ & [x Hx'] & _). exists x. now apply time_value_some. }
    rewrite Em. cbn [bind]. apply map_outcome_ok in Em.
    assert (Htimes : Forall2 (time_is t) rows times).
    { revert Em. apply Forall2_impl_in. intros r x _. apply time_value_some. }
    assert (Hlen : length times = length rows) by (symmetry; now apply (Forall2_length _ _ _ _ _ Em)).
    assert (Hsr : StronglySorted (row_le t) rows).
    { rewrite Eg, map_app, concat_app in Hss. cbn [map concat snd] in Hss.
      apply sorted_app_inv in Hss. destruct Hss as (_ & Hss & _).
      now apply sorted_app_inv in Hss. }
    assert (Hdr : distinct_rows t rows).
    { unfold distinct_rows in *. eapply ordpairs_permutation in Hd; [| |apply Permutation_sym, Hp].
      - rewrite Eg, map_app, concat_app in Hd. cbn [map concat snd] in Hd.
        apply ordpairs_app in Hd. destruct Hd as [_ Hd]. now apply ordpairs_app in Hd.
      - intros r r' H (a & x & H1 & H2 & H3 & H4). apply H. now exists a, x. }
    assert (Hv : valid_timestamps times).
    { split; [|split; [|split]].
      - intros ->. destruct rows; [congruence|discriminate Hlen].
      - apply Forall_forall. intros x Hx. clear - Hx Htimes Hin Hi.
        induction Htimes as [|r y rows times Hy H IH]; [destruct Hx|].
        destruct Hx as [->|Hx].
        + rewrite Forall_forall in Hi. apply (Hi r); [apply Hin; now left|exact Hy].
        + apply IH; [|exact Hx]. intros r' Hr'. apply Hin. now right.
      - pose proof (group_times_sorted t tags rows times Hsr Ht Htimes) as Hle.
        unfold strictly_increasing. clear - Hle Htimes Hdr Ht.
        induction Htimes as [|r x rows times Hx H IH]; [constructor|].
        apply StronglySorted_inv in Hle. destruct Hle as [Hle Hf].
        apply Forall_cons_iff in Ht. destruct Ht as [Hr Ht].
        inversion Hdr as [|? ? Hfd Hdr']; subst.
        constructor; [now apply IH|]. clear IH Hle Hdr Hdr'.
        induction H as [|r' y rows times Hy H IH]; [constructor|].
        apply Forall_cons_iff in Hf, Ht, Hfd. destruct Hf as [Hf Hfs], Ht as [Hr' Ht], Hfd as [Hd Hds].
        constructor; [|now apply IH].
        assert (x <> y); [|lia]. intros ->. apply Hd. now exists tags, y.
      - rewrite Hlen.
        assert (length rows <= length batch)%nat; [|lia].
        rewrite <- (Permutation_length Hp), Eg, map_app, concat_app. cbn [map concat snd].
        rewrite !app_length. lia. }
    apply map_outcome_exists. intros field Hf.
    destruct (map_outcome_exists _ _ (fun r => field_value r field) rows) as [values Ev].
    { intros r Hx. destruct (Hro r Hx) as (_ & _ & Hfv). destruct (Hfv field Hf) as [v Hv'].
      exists v. now apply field_value_some. }
    rewrite Ev. cbn [bind]. apply map_outcome_ok in Ev.
    specialize (Hb field Hf). apply nth_error_Some in Hb.
    destruct (nth_error (error_bounds t) field) as [eb|]; [|congruence]. cbn [bind].
    destruct (compress_covers P eb times values Hv) as (segments & parts & Ec & _).
    { rewrite Hlen. now apply (Forall2_length _ _ _ _ _ Ev). }
    rewrite Ec. now exists (Compressed tags field segments). }
  destruct Hex as [l El]. exists (concat l). rewrite E, El.
  split; [reflexivity|]. apply (multivariate_splits P lexsort t batch); auto. rewrite E, El. reflexivity.
Qed.

(** ** An empty batch *)
Lemma multivariate_empty : forall P lexsort t, sorts lexsort -> tag_column_indices t <> [] ->
  compress_multivariate P lexsort t [] = Panic.
Proof.
  intros P lexsort t Hs Ht. unfold compress_multivariate.
  assert (E : sort_rows lexsort t [] = []).
  { unfold sort_rows. cbn [map]. destruct (Hs []) as [Hp _]; [intros k l []|].
    cbn [length seq] in Hp. apply Permutation_sym, Permutation_nil in Hp. now rewrite Hp. }
  rewrite E. destruct (tag_column_indices t) as [|c cs]; [congruence|]. reflexivity.
Qed.
