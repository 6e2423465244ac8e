(** Lemmas about the maps of Model/Pipeline.v and about sums over lists. *)
From Coq Require Import ZArith List Bool String Permutation Lia.
From Verif Require Import Model.Pipeline.
Import ListNotations.
Open Scope Z_scope.

Fixpoint sum {A : Type} (w : A -> Z) (l : list A) : Z :=
  match l with [] => 0 | a :: l => w a + sum w l end.

Lemma sum_app {A} (w : A -> Z) l k : sum w (l ++ k) = sum w l + sum w k.
Proof. induction l as [|a l IH]; cbn [app sum]; lia. Qed.

Lemma sum_ext_in {A} (v w : A -> Z) l : (forall a, In a l -> v a = w a) -> sum v l = sum w l.
Proof.
  induction l as [|a l IH]; intros H; cbn [sum]; [reflexivity|].
  rewrite (H a (or_introl eq_refl)), IH; [reflexivity|]. intros b Hb. apply H. right. exact Hb.
Qed.

Lemma sum_zero {A} (w : A -> Z) l : (forall a, In a l -> w a = 0) -> sum w l = 0.
Proof.
  intros H. rewrite (sum_ext_in w (fun _ => 0)); [|exact H].
  induction l as [|a l IH]; cbn [sum]; [reflexivity|]. rewrite IH; [reflexivity|].
  intros b Hb. apply H. right. exact Hb.
Qed.

Lemma sum_perm {A} (w : A -> Z) l k : Permutation l k -> sum w l = sum w k.
Proof. induction 1; cbn [sum]; lia. Qed.

Lemma sum_nonneg {A} (w : A -> Z) l : (forall a, In a l -> 0 <= w a) -> 0 <= sum w l.
Proof.
  induction l as [|a l IH]; intros H; cbn [sum]; [lia|].
  pose proof (H a (or_introl eq_refl)).
  enough (0 <= sum w l) by lia. apply IH. intros b Hb. apply H. right. exact Hb.
Qed.

Lemma sum_map {A B} (w : B -> Z) (f : A -> B) l : sum w (map f l) = sum (fun a => w (f a)) l.
Proof. induction l as [|a l IH]; cbn [map sum]; [reflexivity|]. rewrite IH. reflexivity. Qed.

Lemma sum_filter {A} (w : A -> Z) (f : A -> bool) l :
  sum w (filter f l) + sum w (filter (fun a => negb (f a)) l) = sum w l.
Proof.
  induction l as [|a l IH]; cbn [filter sum]; [reflexivity|].
  destruct (f a); cbn [negb sum]; lia.
Qed.

Lemma filter_all {A} (l : list A) : filter (fun _ => true) l = l.
Proof. induction l as [|a l IH]; cbn [filter]; [reflexivity|]. rewrite IH. reflexivity. Qed.

Lemma filter_none {A} (l : list A) : filter (fun _ => false) l = [].
Proof. induction l as [|a l IH]; cbn [filter]; [reflexivity|exact IH]. Qed.

Lemma to_front_perm {A} n (l : list A) : Permutation (to_front n l) l.
Proof.
  unfold to_front. destruct (nth_error l n) as [a|] eqn:E; [|reflexivity].
  rewrite <- (firstn_skipn n l) at 3.
  assert (Hs : skipn n l = a :: skipn (S n) l).
  { revert l E. induction n as [|n IH]; intros [|b l] E; cbn [nth_error] in E; try discriminate E.
    - injection E as ->. reflexivity.
    - change (skipn (S n) (b :: l)) with (skipn n l).
      change (skipn (S (S n)) (b :: l)) with (skipn (S n) l). apply IH. exact E. }
  rewrite Hs. apply Permutation_middle.
Qed.

Section Maps.
  Context {K A : Type} (eqb : K -> K -> bool).
  Hypothesis eqb_eq : forall a b, eqb a b = true <-> a = b.

  Lemma eqb_refl k : eqb k k = true.
  Proof. apply eqb_eq. reflexivity. Qed.

  Lemma eqb_neq a b : a <> b -> eqb a b = false.
  Proof.
    intros H. destruct (eqb a b) eqn:E; [|reflexivity]. apply eqb_eq in E. contradiction.
  Qed.

  Lemma get_in k (m : list (K * A)) a : get eqb k m = Some a -> In (k, a) m.
  Proof.
    induction m as [|[k' a'] m IH]; cbn [get]; intros H; [discriminate H|].
    destruct (eqb k k') eqn:E.
    - injection H as <-. apply eqb_eq in E. subst k'. left. reflexivity.
    - right. apply IH. exact H.
  Qed.

  Lemma get_none k (m : list (K * A)) : get eqb k m = None <-> ~ In k (map fst m).
  Proof.
    induction m as [|[k' a'] m IH]; cbn [get map fst In].
    - split; [intros _ []|reflexivity].
    - destruct (eqb k k') eqn:E.
      + apply eqb_eq in E. subst k'. split; [discriminate|]. intros H. exfalso. apply H. left. reflexivity.
      + rewrite IH. split.
        * intros H [->|H2]; [rewrite eqb_refl in E; discriminate E|contradiction].
        * intros H H2. apply H. right. exact H2.
  Qed.

  Lemma get_key k (m : list (K * A)) : In k (map fst m) -> exists a, get eqb k m = Some a.
  Proof.
    intros H. destruct (get eqb k m) as [a|] eqn:E; [exists a; reflexivity|].
    apply get_none in E. contradiction.
  Qed.

  Lemma in_get k (m : list (K * A)) a : NoDup (map fst m) -> In (k, a) m -> get eqb k m = Some a.
  Proof.
    induction m as [|[k' a'] m IH]; cbn [get map fst In]; intros Hn H; [contradiction|].
    apply NoDup_cons_iff in Hn. destruct Hn as [Hk Hn].
    destruct H as [H|H].
    - injection H as -> ->. rewrite eqb_refl. reflexivity.
    - rewrite eqb_neq; [apply IH; assumption|]. intros ->. apply Hk.
      apply in_map_iff. exists (k', a). split; [reflexivity|exact H].
  Qed.

  Lemma put_none k (m : list (K * A)) a : get eqb k m = None -> put eqb k a m = m ++ [(k, a)].
  Proof.
    induction m as [|[k' a'] m IH]; cbn [get put app]; intros H; [reflexivity|].
    destruct (eqb k k'); [discriminate H|]. rewrite IH; [reflexivity|exact H].
  Qed.

  Lemma keys_put k (m : list (K * A)) a b :
    get eqb k m = Some b -> map fst (put eqb k a m) = map fst m.
  Proof.
    induction m as [|[k' a'] m IH]; cbn [get put]; intros H; [discriminate H|].
    destruct (eqb k k') eqn:E; cbn [map fst].
    - apply eqb_eq in E. subst k'. reflexivity.
    - rewrite IH; [reflexivity|exact H].
  Qed.

  Lemma sum_put k (m : list (K * A)) a b w :
    get eqb k m = Some b -> sum w (put eqb k a m) = sum w m - w (k, b) + w (k, a).
  Proof.
    induction m as [|[k' a'] m IH]; cbn [get put]; intros H; [discriminate H|].
    destruct (eqb k k') eqn:E; cbn [sum].
    - apply eqb_eq in E. subst k'. injection H as ->. lia.
    - rewrite IH; [lia|exact H].
  Qed.

  Lemma in_put k (m : list (K * A)) a k' a' :
    In (k', a') (put eqb k a m) -> (k' = k /\ a' = a) \/ In (k', a') m.
  Proof.
    induction m as [|[j c] m IH]; cbn [put].
    - intros [H|[]]. injection H as <- <-. left. split; reflexivity.
    - destruct (eqb k j) eqn:E.
      + intros [H|H].
        * injection H as <- <-. left. split; reflexivity.
        * right. right. exact H.
      + intros [H|H].
        * right. left. exact H.
        * destruct (IH H) as [H2|H2]; [left; exact H2|right; right; exact H2].
  Qed.

  Lemma get_put k (m : list (K * A)) a : get eqb k (put eqb k a m) = Some a.
  Proof.
    induction m as [|[j c] m IH]; cbn [put get].
    - rewrite eqb_refl. reflexivity.
    - destruct (eqb k j) eqn:E; cbn [get].
      + rewrite eqb_refl. reflexivity.
      + rewrite E. exact IH.
  Qed.

  Lemma get_put_other k j (m : list (K * A)) a :
    j <> k -> get eqb j (put eqb k a m) = get eqb j m.
  Proof.
    intros Hne. induction m as [|[i c] m IH]; cbn [put get].
    - rewrite (eqb_neq _ _ Hne). reflexivity.
    - destruct (eqb k i) eqn:E; cbn [get].
      + apply eqb_eq in E. subst i. rewrite (eqb_neq _ _ Hne). reflexivity.
      + rewrite IH. reflexivity.
  Qed.

  Lemma get_remove_other k j (m : list (K * A)) :
    j <> k -> get eqb j (remove eqb k m) = get eqb j m.
  Proof.
    intros Hne. unfold remove. induction m as [|[i c] m IH]; cbn [filter get fst].
    - reflexivity.
    - destruct (eqb k i) eqn:E; cbn [negb get].
      + apply eqb_eq in E. subst i. rewrite (eqb_neq _ _ Hne). exact IH.
      + rewrite IH. reflexivity.
  Qed.

  Lemma remove_absent k (m : list (K * A)) : ~ In k (map fst m) -> remove eqb k m = m.
  Proof.
    unfold remove. induction m as [|[i c] m IH]; cbn [filter map fst In]; intros H; [reflexivity|].
    rewrite eqb_neq; [|intros ->; apply H; left; reflexivity].
    cbn [negb]. rewrite IH; [reflexivity|]. intros H2. apply H. right. exact H2.
  Qed.

  (** Removing an entry of a map without duplicates takes just that entry out. *)
  Lemma remove_perm k (m : list (K * A)) a :
    NoDup (map fst m) -> get eqb k m = Some a -> Permutation m ((k, a) :: remove eqb k m).
  Proof.
    induction m as [|[i c] m IH]; cbn [map fst get]; intros Hn H; [discriminate H|].
    apply NoDup_cons_iff in Hn. destruct Hn as [Hi Hn].
    destruct (eqb k i) eqn:E.
    - injection H as ->. apply eqb_eq in E. subst i.
      unfold remove. cbn [filter fst]. rewrite eqb_refl. cbn [negb].
      fold (remove eqb k m). rewrite remove_absent by exact Hi. reflexivity.
    - unfold remove. cbn [filter fst]. rewrite E. cbn [negb]. fold (remove eqb k m).
      rewrite perm_swap. apply perm_skip. apply IH; assumption.
  Qed.

  Lemma in_remove k (m : list (K * A)) e : In e (remove eqb k m) -> In e m.
  Proof. intros H. apply filter_In in H. apply H. Qed.

  Lemma keys_perm (m n : list (K * A)) : Permutation m n -> Permutation (map fst m) (map fst n).
  Proof. apply Permutation_map. Qed.
End Maps.

Lemma path_eqb_eq p q : path_eqb p q = true <-> p = q.
Proof.
  destruct p as [[t1 h1] f1], q as [[t2 h2] f2]. cbn [path_eqb].
  rewrite !andb_true_iff, String.eqb_eq, !Z.eqb_eq. split.
  - intros [[-> ->] ->]. reflexivity.
  - intros H. injection H as -> -> ->. repeat split; reflexivity.
Qed.

Lemma in_add_id i j ids : In j (add_id i ids) <-> j = i \/ In j ids.
Proof.
  unfold add_id. destruct (existsb (Z.eqb i) ids) eqn:E.
  - apply existsb_exists in E. destruct E as [k [Hk E]]. apply Z.eqb_eq in E. subst k.
    split; [intros H; right; exact H|]. intros [->|H]; assumption.
  - rewrite in_app_iff. cbn [In]. split.
    + intros [H|[->|[]]]; [right; exact H|left; reflexivity].
    + intros [->|H]; [right; left; reflexivity|left; exact H].
Qed.

Lemma in_add_ids l : forall ids j, In j (add_ids l ids) <-> In j l \/ In j ids.
Proof.
  unfold add_ids. induction l as [|i l IH]; intros ids j; cbn [fold_left In].
  - split; [intros H; right; exact H|intros [[]|H]; exact H].
  - rewrite IH, in_add_id. split.
    + intros [H|[->|H]]; [left; right; exact H|left; left; reflexivity|right; exact H].
    + intros [[->|H]|H]; [right; left; reflexivity|left; exact H|right; right; exact H].
Qed.
