(** Lemmas about the order of f32 including infinities, and about min and max. *)
From Coq Require Import ZArith Reals Psatz Lra Bool Lia.
From Flocq Require Import Core IEEE754.BinarySingleNaN IEEE754.Binary IEEE754.Bits.
From Verif Require Import Model.Base Model.Float Model.ErrorBound Spec.ErrorBoundSpec
  Proofs.FloatProofs Proofs.ErrorBoundProofs.
Open Scope R_scope.

(** The order as a comparison of extended reals. *)
Definition ext_le (x y : f32) : Prop :=
  match x, y with
  | B754_nan _ _ _ _ _, _ | _, B754_nan _ _ _ _ _ => False
  | B754_infinity _ _ true, _ => True
  | _, B754_infinity _ _ false => True
  | B754_infinity _ _ false, _ => False
  | _, B754_infinity _ _ true => False
  | _, _ => R32 x <= R32 y
  end.

Lemma f32_le_ext : forall x y, f32_le x y = true <-> ext_le x y.
Proof.
  intros x y.
  destruct x as [s|[]|s pl Hpl|s m e Hme]; destruct y as [t|[]|t ql Hql|t n f Hnf];
    try (cbn; split; (discriminate || contradiction || reflexivity || (intros; exact I)));
    try (apply f32_le_iff; reflexivity).
Qed.

Lemma f32_le_trans : forall x y z, f32_le x y = true -> f32_le y z = true -> f32_le x z = true.
Proof.
  intros x y z. rewrite !f32_le_ext.
  destruct x as [s|[]|s pl Hpl|s m e Hme], y as [t|[]|t ql Hql|t n f Hnf],
    z as [u|[]|u rl Hrl|u k g Hkg]; cbn [ext_le]; try tauto; lra.
Qed.

Lemma f32_le_refl : forall x, f32_is_nan x = false -> f32_le x x = true.
Proof.
  intros x H. apply f32_le_ext. destruct x as [s|[]|s pl Hpl|s m e Hme];
    try discriminate; cbn [ext_le]; auto; lra.
Qed.

Lemma f32_le_total : forall x y, f32_is_nan x = false -> f32_is_nan y = false ->
  f32_le x y = true \/ f32_le y x = true.
Proof.
  intros x y Hx Hy. rewrite !f32_le_ext.
  destruct x as [s|[]|s pl Hpl|s m e Hme], y as [t|[]|t ql Hql|t n f Hnf];
    try discriminate; cbn [ext_le]; auto; lra.
Qed.

Lemma f32_compare_lt_le : forall x y c, b32_compare x y = Some c -> c <> Gt -> f32_le x y = true.
Proof. intros x y c H Hc. unfold f32_le. rewrite H. destruct c; congruence. Qed.

Lemma f32_compare_total : forall x y, f32_is_nan x = false -> f32_is_nan y = false ->
  exists c, b32_compare x y = Some c.
Proof.
  intros x y Hx Hy. destruct x as [s|s|s pl Hpl|s m e Hme], y as [t|t|t ql Hql|t n f Hnf];
    try discriminate; unfold b32_compare, Bcompare, BinarySingleNaN.Bcompare, SpecFloat.SFcompare;
    cbn; try (destruct s); try (destruct t); try (eexists; reflexivity).
  all: destruct (e ?= f)%Z; try (eexists; reflexivity); destruct (Pcompare _ _ _);
       eexists; reflexivity.
Qed.

Lemma f32_compare_gt_le : forall x y, b32_compare x y = Some Gt -> f32_le y x = true.
Proof.
  intros x y H. unfold f32_le. unfold b32_compare in *.
  rewrite (Bcompare_swap 24 128 x y), H. reflexivity.
Qed.
Lemma f32_compare_eq_le : forall x y, b32_compare x y = Some Eq -> f32_le y x = true.
Proof.
  intros x y H. unfold f32_le. unfold b32_compare in *.
  rewrite (Bcompare_swap 24 128 x y), H. reflexivity.
Qed.

(** [f32_min] of two numbers is one of them and at most both. *)
Lemma f32_min_cases : forall P x y,
  f32_is_nan x = false -> f32_is_nan y = false ->
  (f32_min P x y = x \/ f32_min P x y = y)
  /\ f32_le (f32_min P x y) x = true /\ f32_le (f32_min P x y) y = true
  /\ f32_is_nan (f32_min P x y) = false.
Proof.
  intros P x y Hx Hy. unfold f32_min. rewrite Hx, Hy.
  destruct (f32_compare_total x y Hx Hy) as [c Hc]. rewrite Hc.
  pose proof (f32_le_refl x Hx). pose proof (f32_le_refl y Hy).
  destruct c.
  - pose proof (f32_compare_lt_le x y Eq Hc ltac:(discriminate)).
    pose proof (f32_compare_eq_le x y Hc).
    destruct (min_takes_first P x y); auto.
  - pose proof (f32_compare_lt_le x y Lt Hc ltac:(discriminate)). auto.
  - pose proof (f32_compare_gt_le x y Hc). auto.
Qed.
Lemma f32_max_cases : forall P x y,
  f32_is_nan x = false -> f32_is_nan y = false ->
  (f32_max P x y = x \/ f32_max P x y = y)
  /\ f32_le x (f32_max P x y) = true /\ f32_le y (f32_max P x y) = true
  /\ f32_is_nan (f32_max P x y) = false.
Proof.
  intros P x y Hx Hy. unfold f32_max. rewrite Hx, Hy.
  destruct (f32_compare_total x y Hx Hy) as [c Hc]. rewrite Hc.
  pose proof (f32_le_refl x Hx). pose proof (f32_le_refl y Hy).
  destruct c.
  - pose proof (f32_compare_lt_le x y Eq Hc ltac:(discriminate)).
    pose proof (f32_compare_eq_le x y Hc).
    destruct (max_takes_first P x y); auto.
  - pose proof (f32_compare_lt_le x y Lt Hc ltac:(discriminate)). auto.
  - pose proof (f32_compare_gt_le x y Hc). auto.
Qed.
Lemma f32_min_nan_l : forall P x y, f32_is_nan x = true -> f32_min P x y = y.
Proof. intros P x y H. unfold f32_min. now rewrite H. Qed.
Lemma f32_max_nan_l : forall P x y, f32_is_nan x = true -> f32_max P x y = y.
Proof. intros P x y H. unfold f32_max. now rewrite H. Qed.
Lemma f32_min_nan_r : forall P x y, f32_is_nan x = false -> f32_is_nan y = true ->
  f32_min P x y = x.
Proof. intros P x y H H2. unfold f32_min. now rewrite H, H2. Qed.
Lemma f32_max_nan_r : forall P x y, f32_is_nan x = false -> f32_is_nan y = true ->
  f32_max P x y = x.
Proof. intros P x y H H2. unfold f32_max. now rewrite H, H2. Qed.

(** A value between two finite ones is finite and between them as a real number. *)
Lemma f32_between_finite : forall lo v hi, finite32 lo -> finite32 hi ->
  f32_le lo v = true -> f32_le v hi = true -> finite32 v /\ R32 lo <= R32 v <= R32 hi.
Proof.
  intros lo v hi Hlo Hhi H1 H2.
  assert (Hv : finite32 v).
  { rewrite f32_le_ext in H1, H2. unfold finite32 in *.
    destruct lo as [s|[]|s pl Hpl|s m e Hme], v as [t|[]|t ql Hql|t n f Hnf],
      hi as [u|[]|u rl Hrl|u k g Hkg]; try discriminate; try reflexivity; cbn in *; contradiction. }
  split; [exact Hv|]. split; now apply f32_le_iff.
Qed.
