(** Lemmas about the encoding of model parameters in segments. *)
From Coq Require Import ZArith Reals Psatz Lra Bool Lia List.
From Flocq Require Import Core IEEE754.BinarySingleNaN IEEE754.Binary IEEE754.Bits.
From Verif Require Import Model.Base Model.Float Model.ErrorBound Model.Segments
  Spec.ErrorBoundSpec Spec.SegmentsSpec
  Proofs.FloatProofs Proofs.ErrorBoundProofs Proofs.OrderProofs Proofs.MacaqueVProofs.
Import ListNotations.
Open Scope Z_scope.

Lemma le_bytes_round_trip : forall x, from_le_bytes (to_le_bytes x) = Ok x.
Proof.
  intros x. unfold to_le_bytes, from_le_bytes. f_equal.
  pose proof (to_bits_range x) as H. unfold is_u32 in H.
  replace (_ + _) with (to_bits x); [apply from_to_bits|].
  set (z := to_bits x) in *. Z.div_mod_to_equations. lia.
Qed.

Lemma compare_swap : forall x y c, b32_compare x y = Some c -> b32_compare y x = Some (CompOpp c).
Proof.
  intros x y c H. unfold b32_compare in *. rewrite (Bcompare_swap 24 128 x y), H. reflexivity.
Qed.

Lemma f32_lt_compare : forall x y, f32_lt x y = true <-> b32_compare x y = Some Lt.
Proof. intros. unfold f32_lt. destruct (b32_compare x y) as [[]|]; split; congruence. Qed.

Lemma compare_eq_same : forall x y, b32_compare x y = Some Eq -> same_number x y.
Proof.
  intros x y H. destruct (finite_or_not x) as [Hx|[Hx|Hx]].
  - destruct (finite_or_not y) as [Hy|[Hy|Hy]].
    + left. repeat split; auto. apply (f32_eq_iff x y Hx Hy). unfold f32_eq. now rewrite H.
    + exfalso. destruct (infinite_shape y Hy) as [[] ->]; destruct x; discriminate.
    + exfalso. destruct x, y; discriminate.
  - destruct (infinite_shape x Hx) as [s ->]. right. left. split; [|exact Hx].
    destruct y as [t|t|? ? ?|t ? ? ?]; try (destruct s; discriminate).
    destruct s, t; try discriminate; reflexivity.
  - exfalso. destruct x; discriminate.
Qed.

Lemma same_compare_eq : forall x y, same_number x y -> f32_is_nan x = false ->
  b32_compare x y = Some Eq.
Proof.
  intros x y [(Hx & Hy & H)|[[-> H]|[H _]]] Hn; [| |congruence].
  - apply (f32_eq_iff x y Hx Hy) in H. unfold f32_eq in H.
    destruct (b32_compare x y) as [[]|]; congruence.
  - destruct (infinite_shape y H) as [[] ->]; reflexivity.
Qed.

Definition keeps (P : platform) (v v' : f32) : Prop := same_number v v' /\ (ties_first P -> v' = v).

Lemma keeps_refl : forall P v, keeps P v v.
Proof. intros. split; [apply same_number_refl | auto]. Qed.

Lemma keep_min : forall P m r, f32_is_nan m = false -> f32_lt r m = false -> keeps P m (f32_min P m r).
Proof.
  intros P m r Hm H. unfold f32_min. rewrite Hm.
  destruct (f32_is_nan r) eqn:Hr; [apply keeps_refl|].
  destruct (f32_compare_total m r Hm Hr) as [c Hc]. rewrite Hc. destruct c.
  - destruct (min_takes_first P m r) eqn:Ht; [apply keeps_refl|].
    split; [now apply compare_eq_same|]. intros [Hm1 _]. rewrite Hm1 in Ht. discriminate.
  - apply keeps_refl.
  - apply compare_swap in Hc. apply f32_lt_compare in Hc. congruence.
Qed.

Lemma keep_max : forall P m r, f32_is_nan m = false -> f32_lt m r = false -> keeps P m (f32_max P m r).
Proof.
  intros P m r Hm H. unfold f32_max. rewrite Hm.
  destruct (f32_is_nan r) eqn:Hr; [apply keeps_refl|].
  destruct (f32_compare_total m r Hm Hr) as [c Hc]. rewrite Hc. destruct c.
  - destruct (max_takes_first P m r) eqn:Ht; [apply keeps_refl|].
    split; [now apply compare_eq_same|]. intros [_ Hm1]. rewrite Hm1 in Ht. discriminate.
  - apply f32_lt_compare in Hc. congruence.
  - apply keeps_refl.
Qed.

Lemma f32_le_lt : forall x y, f32_le x y = true -> f32_lt y x = false.
Proof.
  intros x y H. destruct (f32_lt y x) eqn:E; [|reflexivity]. apply f32_lt_compare in E.
  apply compare_swap in E. unfold f32_le in H. rewrite E in H. discriminate.
Qed.

(** ** PMC-Mean *)
Lemma pmc_parameters : forall P v residuals_min residuals_max, f32_is_nan v = false ->
  exists v', decode_values_for_pmc_mean (f32_min P v residuals_min) (f32_max P v residuals_max)
               (encode_values_for_pmc_mean v v residuals_min residuals_max) = Ok v'
    /\ same_number v v' /\ (ties_first P -> v' = v).
Proof.
  intros P v rmin rmax Hv. unfold encode_values_for_pmc_mean.
  destruct (f32_lt rmin v) eqn:E1; [destruct (f32_le rmax v) eqn:E2|].
  - cbn [decode_values_for_pmc_mean]. eexists. split; [reflexivity|].
    apply keep_max; [exact Hv|]. now apply f32_le_lt.
  - pose proof (le_bytes_round_trip v) as H. unfold to_le_bytes in *.
    cbn [decode_values_for_pmc_mean]. rewrite H.
    eexists. split; [reflexivity|]. apply keeps_refl.
  - cbn [decode_values_for_pmc_mean]. eexists. split; [reflexivity|]. now apply keep_min.
Qed.

Lemma pmc_parameters_nan : forall P, exists v residuals_min residuals_max v',
  f32_is_nan v = true /\ f32_is_nan residuals_min = false /\ f32_is_nan residuals_max = false
  /\ decode_values_for_pmc_mean (f32_min P v residuals_min) (f32_max P v residuals_max)
       (encode_values_for_pmc_mean v v residuals_min residuals_max) = Ok v'
  /\ ~ same_number v v'.
Proof.
  intros P. exists f32_nan, f32_zero, f32_zero, f32_zero.
  repeat split. intros [(H & _)|[[H _]|[_ H]]]; discriminate.
Qed.

(** ** Swing *)
Definition keeps2 (P : platform) (first last : f32) (r : outcome (f32 * f32)) : Prop :=
  exists f l, r = Ok (f, l) /\ same_number first f /\ same_number last l
    /\ (ties_first P -> f = first /\ ((same_number first last -> first = last) -> l = last)).

Lemma same_number_sym : forall x y, same_number x y -> same_number y x.
Proof.
  intros x y [(H1 & H2 & H3)|[[H1 H2]|[H1 H2]]].
  - left. auto.
  - subst. right. left. auto.
  - right. right. auto.
Qed.
Lemma same_number_trans : forall x y z, same_number x y -> same_number y z -> same_number x z.
Proof.
  intros x y z [(H1 & H2 & H3)|[[H1 H2]|[H1 H2]]].
  - intros [(H4 & H5 & H6)|[[H4 H5]|[H4 H5]]].
    + left. repeat split; auto. congruence.
    + subst. exfalso. now apply infinite_not_finite in H5.
    + exfalso. now apply nan_not_finite in H4.
  - intros H. subst. exact H.
  - intros [(H4 & H5 & H6)|[[H4 H5]|[H4 H5]]].
    + exfalso. now apply nan_not_finite in H2.
    + subst. exfalso. destruct z; discriminate.
    + right. right. auto.
Qed.
Lemma same_number_nan : forall x y, same_number x y -> f32_is_nan x = false -> f32_is_nan y = false.
Proof.
  intros x y [(H1 & H2 & H3)|[[H1 H2]|[H1 H2]]] Hx.
  - destruct (f32_is_nan y) eqn:E; [|reflexivity]. now apply nan_not_finite in E.
  - now subst.
  - congruence.
Qed.

(** The minimum and maximum of the two values. *)
Lemma swing_min_max : forall P first last, f32_is_nan first = false -> f32_is_nan last = false ->
  (f32_lt first last = true /\ f32_min P first last = first /\ f32_max P first last = last)
  \/ (f32_lt first last = false /\ f32_is_nan (f32_min P first last) = false
      /\ f32_is_nan (f32_max P first last) = false
      /\ same_number first (f32_max P first last) /\ same_number last (f32_min P first last)
      /\ (ties_first P -> f32_max P first last = first
            /\ ((same_number first last -> first = last) -> f32_min P first last = last))).
Proof.
  intros P first last Hf Hl. destruct (f32_compare_total first last Hf Hl) as [c Hc].
  unfold f32_lt, f32_min, f32_max. rewrite Hf, Hl, Hc. destruct c.
  - right. pose proof (compare_eq_same _ _ Hc) as Hs. split; [reflexivity|].
    assert (G : forall b : bool, f32_is_nan (if b then first else last) = false
                /\ same_number first (if b then first else last)
                /\ same_number last (if b then first else last)).
    { intros []; repeat split; auto; try apply same_number_refl. now apply same_number_sym. }
    repeat split; try apply G.
    + intros. destruct H as [_ H]. now rewrite H.
    + intros H0. destruct H as [H _]. rewrite H. auto.
  - left. auto.
  - right. repeat split; auto; apply same_number_refl.
Qed.

Lemma swing_parameters : forall P first last, f32_is_nan first = false -> f32_is_nan last = false ->
  let min := swing_min P first last in
  let max := swing_max P first last in
  let min_is_first := f32_lt first last in
  keeps2 P first last (decode_values_for_swing min max (if min_is_first then [] else [0]))
  /\ forall residuals_min residuals_max,
     keeps2 P first last
       (decode_values_for_swing (f32_min P min residuals_min) (f32_max P max residuals_max)
          (encode_values_for_swing min max min_is_first residuals_min residuals_max)).
Proof.
  intros P first last Hf Hl. cbv zeta. unfold swing_min, swing_max.
  destruct (swing_min_max P first last Hf Hl) as [(Hlt & Hmin & Hmax)|(Hlt & Nmin & Nmax & Smax & Smin & Ht)].
  - rewrite Hlt, Hmin, Hmax. split.
    { cbn [decode_values_for_swing]. exists first, last.
      repeat split; auto using same_number_refl. }
    intros rmin rmax. unfold encode_values_for_swing.
    pose proof (le_bytes_round_trip first) as Bf. pose proof (le_bytes_round_trip last) as Bl.
    destruct (f32_lt rmin first) eqn:E1; destruct (f32_lt last rmax) eqn:E2; cbn [andb].
    + unfold to_le_bytes in *. cbn [app decode_values_for_swing]. rewrite Bf. cbn [bind]. rewrite Bl.
      exists first, last. repeat split; auto using same_number_refl.
    + unfold to_le_bytes in *. cbn [app decode_values_for_swing]. rewrite Bf. cbn [bind Z.eqb].
      destruct (keep_max P last rmax Hl E2) as [K1 K2].
      eexists _, _. split; [reflexivity|]. repeat split; auto using same_number_refl.
    + unfold to_le_bytes in *. cbn [app decode_values_for_swing]. rewrite Bl. cbn [bind Z.eqb].
      destruct (keep_min P first rmin Hf E1) as [K1 K2].
      eexists _, _. split; [reflexivity|]. repeat split; auto using same_number_refl.
    + cbn [negb decode_values_for_swing].
      destruct (keep_max P last rmax Hl E2) as [K1 K2].
      destruct (keep_min P first rmin Hf E1) as [K3 K4].
      eexists _, _. split; [reflexivity|]. repeat split; auto.
  - rewrite Hlt. set (mn := f32_min P first last) in *. set (mx := f32_max P first last) in *. split.
    { cbn [decode_values_for_swing]. exists mx, mn. split; [reflexivity|]. auto. }
    intros rmin rmax. unfold encode_values_for_swing.
    pose proof (le_bytes_round_trip mn) as Bn. pose proof (le_bytes_round_trip mx) as Bx.
    destruct (f32_lt rmin mn) eqn:E1; destruct (f32_lt mx rmax) eqn:E2; cbn [andb].
    + unfold to_le_bytes in *. cbn [app decode_values_for_swing]. rewrite Bx. cbn [bind]. rewrite Bn.
      exists mx, mn. split; [reflexivity|]. auto.
    + unfold to_le_bytes in *. cbn [app decode_values_for_swing]. rewrite Bn. cbn [bind Z.eqb].
      destruct (keep_max P mx rmax Nmax E2) as [K1 K2].
      eexists _, _. split; [reflexivity|]. split; [eapply same_number_trans; eauto|]. split; [auto|].
      intros HT. destruct (Ht HT) as [T1 T2]. split; [rewrite (K2 HT); exact T1|auto].
    + unfold to_le_bytes in *. cbn [app decode_values_for_swing]. rewrite Bx. cbn [bind Z.eqb].
      destruct (keep_min P mn rmin Nmin E1) as [K1 K2].
      eexists _, _. split; [reflexivity|]. split; [auto|].
      split; [eapply same_number_trans; eauto|].
      intros HT. destruct (Ht HT) as [T1 T2]. split; [exact T1|]. rewrite (K2 HT). exact T2.
    + cbn [negb decode_values_for_swing].
      destruct (keep_max P mx rmax Nmax E2) as [K1 K2].
      destruct (keep_min P mn rmin Nmin E1) as [K3 K4].
      eexists _, _. split; [reflexivity|]. split; [eapply same_number_trans; eauto|].
      split; [eapply same_number_trans; eauto|].
      intros HT. destruct (Ht HT) as [T1 T2]. rewrite (K2 HT), (K4 HT). auto.
Qed.

Lemma swing_parameters_nan : forall P, exists first last residuals_min residuals_max f l,
  f32_is_nan first = true /\ f32_is_nan last = true
  /\ f32_is_nan residuals_min = false /\ f32_is_nan residuals_max = false
  /\ decode_values_for_swing (f32_min P (swing_min P first last) residuals_min)
       (f32_max P (swing_max P first last) residuals_max)
       (encode_values_for_swing (swing_min P first last) (swing_max P first last)
          (f32_lt first last) residuals_min residuals_max) = Ok (f, l)
  /\ ~ same_number first f.
Proof.
  intros P. exists f32_nan, f32_nan, f32_zero, f32_zero, f32_zero, f32_zero.
  repeat split. intros [(H & _)|[[H _]|[_ H]]]; discriminate.
Qed.
