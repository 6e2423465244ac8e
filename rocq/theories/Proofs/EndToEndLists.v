(** Lists of parts of lists. *)
From Coq Require Import ZArith List Permutation Sorted Lia.
Import ListNotations.
Open Scope list_scope.

Lemma fop_in {A} (R : A -> A -> Prop) a l : ForallOrdPairs R (a :: l) -> forall b, In b l -> R a b.
Proof. intros H b Hb. inversion H; subst. rewrite Forall_forall in H2. apply H2. exact Hb. Qed.

Section Lists.
  Context {A B : Type}.

  Lemma split_map (f : A -> B) (b c : list B) : forall l, map f l = b ++ c ->
    exists l1 l2, l = l1 ++ l2 /\ map f l1 = b /\ map f l2 = c.
  Proof.
    induction b as [|y b IH]; intros l H; cbn [app] in H.
    - exists [], l. repeat split. exact H.
    - destruct l as [|a l]; [discriminate H|]. injection H as <- H.
      destruct (IH l H) as [l1 [l2 [-> [<- <-]]]]. exists (a :: l1), l2. repeat split.
  Qed.

  Lemma split_concat (f : A -> B) (parts : list (list B)) : forall l, concat parts = map f l ->
    exists lp, concat lp = l /\ map (map f) lp = parts.
  Proof.
    induction parts as [|b parts IH]; intros l H; cbn [concat] in H.
    - destruct l; [|discriminate H]. exists []. split; reflexivity.
    - destruct (split_map f b (concat parts) l (eq_sym H)) as [l1 [l2 [-> [E1 E2]]]].
      destruct (IH l2 (eq_sym E2)) as [lp [<- E]]. exists (l1 :: lp). split; [reflexivity|].
      cbn [map]. rewrite E1, E. reflexivity.
  Qed.

  Lemma forall2_perm (R : A -> B -> Prop) xs xs' : Permutation xs xs' -> forall ys, Forall2 R xs ys ->
    exists ys', Permutation ys ys' /\ Forall2 R xs' ys'.
  Proof.
    intros Hp. induction Hp as [|x l l' Hp IH|x y l|l l' l'' Hp IH Hp' IH']; intros ys H.
    - inversion H; subst. exists []. split; constructor.
    - inversion H as [|a b la lb Hab Hl]; subst. destruct (IH lb Hl) as [ys' [P F]].
      exists (b :: ys'). split; [constructor; exact P|constructor; assumption].
    - inversion H as [|a b la lb Hab Hl]; subst. inversion Hl as [|a' b' la' lb' Hab' Hl']; subst.
      exists (b' :: b :: lb'). split; [constructor|]. constructor; [exact Hab'|]. constructor; assumption.
    - destruct (IH ys H) as [m [P F]]. destruct (IH' m F) as [k [Q G]].
      exists k. split; [transitivity m; assumption|exact G].
  Qed.

  Lemma concat_perm (l l' : list (list A)) : Permutation l l' -> Permutation (concat l) (concat l').
  Proof.
    intros Hp. induction Hp as [|x l l' Hp IH|x y l|l l' l'' Hp IH Hp' IH']; cbn [concat].
    - constructor.
    - apply Permutation_app_head. exact IH.
    - rewrite !app_assoc. apply Permutation_app_tail. apply Permutation_app_comm.
    - transitivity (concat l'); assumption.
  Qed.

  Lemma fop_app (R : A -> A -> Prop) l : forall k, ForallOrdPairs R l -> ForallOrdPairs R k ->
    (forall a b, In a l -> In b k -> R a b) -> ForallOrdPairs R (l ++ k).
  Proof.
    induction l as [|a l IH]; intros k Hl Hk Hc; cbn [app]; [exact Hk|].
    inversion Hl; subst. constructor.
    - apply Forall_app. split; [assumption|]. apply Forall_forall. intros b Hb. apply Hc; [left; reflexivity|exact Hb].
    - apply IH; [assumption|exact Hk|]. intros x y Hx Hy. apply Hc; [right; exact Hx|exact Hy].
  Qed.

  Lemma fop_perm (R : A -> A -> Prop) : (forall a b, R a b -> R b a) -> forall l l',
    Permutation l l' -> ForallOrdPairs R l -> ForallOrdPairs R l'.
  Proof.
    intros Hs l l' Hp. induction Hp as [|x l l' Hp IH|x y l|l l' l'' Hp IH Hp' IH']; intros H.
    - exact H.
    - inversion H; subst. constructor; [|apply IH; assumption].
      rewrite Forall_forall in *. intros b Hb. apply H2. apply (Permutation_in b (Permutation_sym Hp)). exact Hb.
    - inversion H as [|a k Hy Hr]; subst. inversion Hr as [|a k Hx Hl]; subst. apply Forall_cons_iff in Hy. destruct Hy as [Hyx Hy].
      constructor; [constructor; [apply Hs; exact Hyx|exact Hx]|]. constructor; assumption.
    - apply IH', IH, H.
  Qed.

  Lemma sorted_same (lt : A -> A -> Prop) : (forall a, ~ lt a a) -> (forall a b c, lt a b -> lt b c -> lt a c) ->
    forall l k, StronglySorted lt l -> StronglySorted lt k -> Permutation l k -> l = k.
  Proof.
    intros Hi Ht l. induction l as [|a l IH]; intros k Hl Hk Hp.
    - apply Permutation_nil in Hp. subst. reflexivity.
    - destruct k as [|b k]; [apply Permutation_sym, Permutation_nil in Hp; discriminate Hp|].
      apply StronglySorted_inv in Hl, Hk. destruct Hl as [Hl Fa], Hk as [Hk Fb].
      rewrite Forall_forall in Fa, Fb.
      assert (E : a = b).
      { assert (Ha : In a (b :: k)) by (apply (Permutation_in a Hp); left; reflexivity).
        assert (Hb : In b (a :: l)) by (apply (Permutation_in b (Permutation_sym Hp)); left; reflexivity).
        destruct Ha as [E|Ha]; [symmetry; exact E|]. destruct Hb as [E|Hb]; [exact E|].
        contradiction (Hi a). apply (Ht a b a); [apply Fa; exact Hb|apply Fb; exact Ha]. }
      subst b. f_equal. apply IH; try assumption. apply (Permutation_cons_inv Hp).
  Qed.

  Lemma keyed_same (key : A -> B) : forall l k, NoDup (map key l) -> Permutation l k ->
    map key l = map key k -> l = k.
  Proof.
    intros l. induction l as [|a l IH]; intros k Hn Hp E.
    - apply Permutation_nil in Hp. subst. reflexivity.
    - destruct k as [|b k]; [discriminate E|]. cbn [map] in *. injection E as Ea E.
      assert (Hb : In b (a :: l)) by (apply (Permutation_in b (Permutation_sym Hp)); left; reflexivity).
      inversion Hn as [|x y Hna Hnl]; subst.
      destruct Hb as [<-|Hb].
      + f_equal. apply IH; try assumption. apply (Permutation_cons_inv Hp).
      + contradiction Hna. rewrite Ea. apply in_map. exact Hb.
  Qed.

  (** A list sorted within and between its parts. *)
  Lemma sorted_concat (lt : A -> A -> Prop) (parts : list (list A)) :
    (forall p, In p parts -> StronglySorted lt p) ->
    ForallOrdPairs (fun p q => forall x y, In x p -> In y q -> lt x y) parts ->
    StronglySorted lt (concat parts).
  Proof.
    induction parts as [|p parts IH]; intros Hs Hf; cbn [concat]; [constructor|].
    assert (Hp : StronglySorted lt p) by (apply Hs; left; reflexivity).
    assert (Hr : StronglySorted lt (concat parts)).
    { inversion Hf; subst. apply IH; [|assumption]. intros q Hq. apply Hs. right. exact Hq. }
    assert (Hc : forall x y, In x p -> In y (concat parts) -> lt x y).
    { intros x y Hx Hy. apply in_concat in Hy. destruct Hy as [q [Hq Hy]].
      apply (fop_in _ p parts Hf q Hq); assumption. }
    clear - Hp Hr Hc. induction p as [|a p IH]; cbn [app]; [exact Hr|].
    apply StronglySorted_inv in Hp. destruct Hp as [Hp Fa]. constructor.
    - apply IH; [exact Hp|]. intros x y Hx Hy. apply Hc; [right; exact Hx|exact Hy].
    - apply Forall_app. split; [exact Fa|]. apply Forall_forall. intros y Hy. apply Hc; [left; reflexivity|exact Hy].
  Qed.
  Lemma sorted_parts (lt : A -> A -> Prop) (parts : list (list A)) : StronglySorted lt (concat parts) ->
    (forall p, In p parts -> StronglySorted lt p)
    /\ ForallOrdPairs (fun p q => forall x y, In x p -> In y q -> lt x y) parts.
  Proof.
    induction parts as [|p parts IH]; intros Hs; cbn [concat] in Hs; [split; [intros p []|constructor]|].
    assert (Hx : StronglySorted lt p /\ StronglySorted lt (concat parts)
                 /\ forall x y, In x p -> In y (concat parts) -> lt x y).
    { clear IH. induction p as [|a p IH]; cbn [app] in Hs; [repeat split; [constructor|exact Hs|intros x y []]|].
      apply StronglySorted_inv in Hs. destruct Hs as [Hs Fa]. destruct (IH Hs) as [H1 [H2 H3]].
      apply Forall_app in Fa. destruct Fa as [Fp Fc]. rewrite Forall_forall in Fc.
      repeat split; [constructor; assumption|exact H2|]. intros x y [<-|Hx] Hy; [apply Fc; exact Hy|apply H3; assumption]. }
    destruct Hx as [H1 [H2 H3]]. destruct (IH H2) as [H4 H5]. split.
    - intros q [<-|Hq]; [exact H1|apply H4; exact Hq].
    - constructor; [|exact H5]. apply Forall_forall. intros q Hq x y Hx Hy. apply H3; [exact Hx|].
      apply in_concat. exists q. split; assumption.
  Qed.
End Lists.

Lemma sorted_weaken {A} (R R' : A -> A -> Prop) l : (forall a b, In a l -> In b l -> R a b -> R' a b) ->
  StronglySorted R l -> StronglySorted R' l.
Proof.
  induction l as [|a l IH]; intros H Hs; [constructor|]. apply StronglySorted_inv in Hs. destruct Hs as [Hs Fa].
  constructor.
  - apply IH; [|exact Hs]. intros x y Hx Hy. apply H; right; assumption.
  - rewrite Forall_forall in *. intros b Hb. apply H; [left; reflexivity|right; exact Hb|apply Fa; exact Hb].
Qed.

Lemma fop_of_sorted {A} (R : A -> A -> Prop) l : StronglySorted R l -> ForallOrdPairs R l.
Proof. induction 1; constructor; assumption. Qed.

Lemma fop_weaken {A} (R R' : A -> A -> Prop) l : (forall a b, In a l -> In b l -> R a b -> R' a b) ->
  ForallOrdPairs R l -> ForallOrdPairs R' l.
Proof.
  induction l as [|a l IH]; intros H Hs; [constructor|]. inversion Hs; subst. constructor.
  - rewrite Forall_forall in *. intros b Hb. apply H; [left; reflexivity|right; exact Hb|auto].
  - apply IH; [|assumption]. intros x y Hx Hy. apply H; right; assumption.
Qed.

Lemma fop_and {A} (R R' : A -> A -> Prop) l : ForallOrdPairs R l -> ForallOrdPairs R' l ->
  ForallOrdPairs (fun a b => R a b /\ R' a b) l.
Proof.
  induction l as [|a l IH]; intros H1 H2; [constructor|]. inversion H1; subst. inversion H2; subst. constructor.
  - rewrite Forall_forall in *. auto.
  - apply IH; assumption.
Qed.

(** Pairs of related lists. *)
Lemma fop_forall2 {A B} (R : A -> B -> Prop) (S : A -> A -> Prop) (T : B -> B -> Prop) :
  (forall a a' b b', R a b -> R a' b' -> S a a' -> T b b') ->
  forall xs ys, Forall2 R xs ys -> ForallOrdPairs S xs -> ForallOrdPairs T ys.
Proof.
  intros H xs ys F. induction F as [|x y xs ys Hxy F IH]; intros Hs; [constructor|]. inversion Hs; subst.
  constructor; [|apply IH; assumption].
  clear - H Hxy F H2. induction F as [|a b la lb Hab F IH]; [constructor|]. apply Forall_cons_iff in H2. destruct H2 as [Ha H2].
  constructor; [apply (H x a y b); assumption|apply IH; assumption].
Qed.
