(** Lemmas about constant function models. *)
From Coq Require Import ZArith Reals Psatz Lra Bool Lia List.
From Flocq Require Import Core IEEE754.BinarySingleNaN IEEE754.Binary IEEE754.Bits.
From Verif Require Import Model.Base Model.Float Model.ErrorBound Model.Pmc
  Spec.ErrorBoundSpec Spec.PmcSpec Proofs.FloatProofs Proofs.ErrorBoundProofs Proofs.OrderProofs.
Import ListNotations.
Open Scope R_scope.

Lemma f64_add_nan : forall x y, f64_is_nan x = true \/ f64_is_nan y = true ->
  f64_is_nan (f64_add x y) = true.
Proof.
  intros x y H. unfold f64_add, b64_plus, Bplus.
  destruct x as [s|s|s pl Hpl|s m e Hme], y as [t|t|t ql Hql|t n f Hnf]; cbn in H;
    try (destruct H; discriminate); reflexivity.
Qed.
Lemma f64_div_nan : forall x y, f64_is_nan x = true -> f64_is_nan (f64_div x y) = true.
Proof.
  intros x y H. unfold f64_div, b64_div, Bdiv.
  destruct x as [s|s|s pl Hpl|s m e Hme], y as [t|t|t ql Hql|t n f Hnf]; try discriminate;
    reflexivity.
Qed.
Lemma f32_of_f64_nan : forall x, f64_is_nan x = true -> f32_is_nan (f32_of_f64 x) = true.
Proof. intros x H. destruct x; try discriminate. reflexivity. Qed.
Lemma average_nan : forall s n, f64_is_nan s = true -> f32_is_nan (average_of s n) = true.
Proof. intros. unfold average_of. now apply f32_of_f64_nan, f64_div_nan. Qed.

(** An approximation that is NaN is only accepted for NaN, and the other way around. *)
Lemma check_nan : forall eb x y, valid_error_bound eb ->
  is_value_within_error_bound eb x y = true -> f32_is_nan x = f32_is_nan y.
Proof.
  intros eb x y Hv H. apply check_sound in H; [|exact Hv].
  assert (Hfin : forall z, finite32 z -> f32_is_nan z = false).
  { intros z Hz. unfold finite32 in Hz. destruct z; easy. }
  destruct H as [[(Hx & Hy & _)|[[-> _]|[Hx Hy]]]|(Hx & Hy & _)]; try congruence;
    rewrite (Hfin x Hx), (Hfin y Hy); reflexivity.
Qed.

(** Values accepted one after the other, last one first. *)
Inductive pmc_accepts (P : platform) : pmc -> list f32 -> pmc -> Prop :=
| pmc_accepts_nil : forall m, pmc_accepts P m [] m
| pmc_accepts_snoc : forall m values m' value m'',
    pmc_accepts P m values m' ->
    pmc_fit_value P m' value = (true, m'') ->
    pmc_accepts P m (values ++ [value]) m''.

Lemma pmc_accepts_cons : forall P m v m' values m'',
  pmc_fit_value P m v = (true, m') -> pmc_accepts P m' values m'' ->
  pmc_accepts P m (v :: values) m''.
Proof.
  intros P m v m' values m'' H Ha. induction Ha.
  - apply (pmc_accepts_snoc P m [] m v m0); [constructor | exact H].
  - apply (pmc_accepts_snoc P m (v :: values) m' value m''); auto.
Qed.

Lemma pmc_fit_all_accepts : forall P values m m',
  pmc_fit_all P m values = Some m' -> pmc_accepts P m values m'.
Proof.
  intros P values. induction values as [|v values IH]; intros m m' H; cbn [pmc_fit_all] in H.
  - injection H as <-. constructor.
  - destruct (pmc_fit_value P m v) as [[] m1] eqn:E; [|discriminate].
    eapply pmc_accepts_cons; eauto.
Qed.

(** State after accepting values. *)
Record pmc_inv (eb : error_bound) (values : list f32) (m : pmc) : Prop := {
  pi_eb : pmc_error_bound m = eb;
  pi_length : pmc_length m = length values;
  pi_checks : values <> [] ->
    is_value_within_error_bound eb (pmc_min m) (pmc_model m) = true
    /\ is_value_within_error_bound eb (pmc_max m) (pmc_model m) = true;
  pi_kind :
    values = [] /\ f32_is_nan (pmc_min m) = true /\ f32_is_nan (pmc_max m) = true
    \/ values <> [] /\ f32_is_nan (pmc_min m) = true /\ f32_is_nan (pmc_max m) = true
       /\ f64_is_nan (pmc_sum m) = true
       /\ (forall v, In v values -> f32_is_nan v = true)
    \/ f32_is_nan (pmc_min m) = false /\ f32_is_nan (pmc_max m) = false
       /\ In (pmc_min m) values /\ In (pmc_max m) values
       /\ (forall v, In v values -> f32_le (pmc_min m) v = true /\ f32_le v (pmc_max m) = true)
}.

Lemma pmc_inv_new : forall eb, pmc_inv eb [] (pmc_new eb).
Proof.
  intros eb. split; try reflexivity.
  - intros H. congruence.
  - left. repeat split; reflexivity.
Qed.

Lemma pmc_inv_step : forall P eb values m v m', valid_error_bound eb ->
  pmc_inv eb values m -> pmc_fit_value P m v = (true, m') -> pmc_inv eb (values ++ [v]) m'.
Proof.
  intros P eb values m v m' Hv [Heb Hlen Hchk Hkind] H.
  unfold pmc_fit_value in H. rewrite Heb in H.
  destruct (_ && _) eqn:E; [|discriminate]. injection H as <-.
  apply andb_true_iff in E. destruct E as [E1 E2].
  split; cbn [pmc_error_bound pmc_length pmc_min pmc_max pmc_sum]; auto.
  - rewrite app_length. cbn [length]. lia.
  - pose proof (check_nan _ _ _ Hv E1) as N1. pose proof (check_nan _ _ _ Hv E2) as N2.
    destruct Hkind as [(Hnil & Hmin & Hmax)|[(Hne & Hmin & Hmax & Hsum & Hall)|
                       (Hmin & Hmax & Imin & Imax & Hall)]].
    + subst values. rewrite (f32_min_nan_l _ _ _ Hmin), (f32_max_nan_l _ _ _ Hmax) in *.
      destruct (f32_is_nan v) eqn:Ev.
      * right. left. split; [discriminate|]. repeat split; auto.
        -- apply f64_add_nan. right. now rewrite f64_of_f32_nan.
        -- intros w [->|[]]. exact Ev.
      * right. right. repeat split; auto; try (left; reflexivity);
          destruct H as [->|[]]; now apply f32_le_refl.
    + assert (Hs : f64_is_nan (f64_add (pmc_sum m) (f64_of_f32 v)) = true)
        by (apply f64_add_nan; auto).
      rewrite (f32_min_nan_l _ _ _ Hmin), (f32_max_nan_l _ _ _ Hmax) in *.
      rewrite (average_nan _ _ Hs) in N1.
      right. left. repeat split; auto.
      * destruct values; discriminate.
      * intros w Hw. apply in_app_iff in Hw. destruct Hw as [Hw|[->|[]]]; auto.
    + assert (Ev : f32_is_nan v = false).
      { destruct (f32_is_nan v) eqn:Ev; [|reflexivity]. exfalso.
        assert (Hs : f64_is_nan (f64_add (pmc_sum m) (f64_of_f32 v)) = true)
          by (apply f64_add_nan; right; now rewrite f64_of_f32_nan).
        rewrite (average_nan _ _ Hs), (f32_min_nan_r _ _ _ Hmin Ev) in N1. congruence. }
      destruct (f32_min_cases P _ _ Hmin Ev) as (C1 & L1 & L2 & L3).
      destruct (f32_max_cases P _ _ Hmax Ev) as (C2 & G1 & G2 & G3).
      right. right. rewrite L3, G3. repeat split; auto.
      * apply in_app_iff. destruct C1 as [->| ->]; [auto | right; left; reflexivity].
      * apply in_app_iff. destruct C2 as [->| ->]; [auto | right; left; reflexivity].
      * apply in_app_iff in H. destruct H as [Hw|[->|[]]]; [|exact L2].
        eapply f32_le_trans; [exact L1|]. now apply Hall.
      * apply in_app_iff in H. destruct H as [Hw|[->|[]]]; [|exact G2].
        eapply f32_le_trans; [|exact G1]. now apply Hall.
Qed.

Lemma pmc_accepts_inv : forall P m values m', pmc_accepts P m values m' ->
  forall eb, valid_error_bound eb -> m = pmc_new eb -> pmc_inv eb values m'.
Proof.
  intros P m values m' H. induction H; intros eb Hv ->.
  - apply pmc_inv_new.
  - eapply pmc_inv_step; eauto.
Qed.

Lemma between_relative : forall k lo v hi a,
  0 < lo -> lo <= v <= hi -> 0 <= k ->
  Rabs (lo - a) <= k * Rabs lo -> Rabs (hi - a) <= k * Rabs hi -> Rabs (v - a) <= k * Rabs v.
Proof.
  intros k lo v hi a Hlo [H1 H2] Hk Ha Hb.
  rewrite (Rabs_pos_eq lo) in Ha by lra. rewrite (Rabs_pos_eq hi) in Hb by lra.
  rewrite (Rabs_pos_eq v) by lra.
  apply Rabs_le_inv in Ha. apply Rabs_le_inv in Hb. apply Rabs_le.
  split.
  - assert (k * lo <= k * v) by (apply Rmult_le_compat_l; lra). lra.
  - (* v - a <= k v: from hi - a <= k hi, (1 - k) hi <= a. *)
    destruct (Rle_or_lt k 1) as [Hk1|Hk1].
    + assert ((1 - k) * v <= (1 - k) * hi) by (apply Rmult_le_compat_l; lra). lra.
    + assert ((k - 1) * lo <= (k - 1) * v) by (apply Rmult_le_compat_l; lra).
      assert (Haa : - k * lo <= lo - a) by lra.
      (* a may be negative: use lo: lo - a <= k lo *)
      lra.
Qed.

Lemma between_relative_neg : forall k lo v hi a,
  hi < 0 -> lo <= v <= hi -> 0 <= k ->
  Rabs (lo - a) <= k * Rabs lo -> Rabs (hi - a) <= k * Rabs hi -> Rabs (v - a) <= k * Rabs v.
Proof.
  intros k lo v hi a Hhi Hb Hk H1 H2.
  rewrite <- (Rabs_Ropp v), <- (Rabs_Ropp (v - a)).
  replace (- (v - a)) with (- v - - a) by ring.
  apply between_relative with (lo := - hi) (hi := - lo); try lra; rewrite Rabs_Ropp.
  - replace (- hi - - a) with (- (hi - a)) by ring. now rewrite Rabs_Ropp.
  - replace (- lo - - a) with (- (lo - a)) by ring. now rewrite Rabs_Ropp.
Qed.

(** Straddling zero needs a bound of at least 100%. *)
Lemma rnd32_1 : rnd32 1 = 1.
Proof.
  unfold rnd32. apply round_generic; [typeclasses eauto|].
  change 1 with (bpow radix2 0). apply generic_format_bpow. unfold FLT_exp. lia.
Qed.
Lemma rnd32_100 : rnd32 100 = 100.
Proof.
  destruct f32_100_correct as [_ H]. rewrite <- H at 1 2. now rewrite rnd32_id.
Qed.

Lemma relative_far : forall x y, R32 x <> 0 ->
  (0 < R32 x /\ R32 y <= 0 \/ R32 x < 0 /\ 0 <= R32 y) ->
  100 <= rnd32 (Rabs (rnd32 (rnd32 (R32 x - R32 y) / R32 x)) * 100).
Proof.
  intros x y Hx H.
  assert (H1 : 1 <= rnd32 (R32 x - R32 y) / R32 x).
  { destruct H as [[H1 H2]|[H1 H2]].
    - apply Rmult_le_reg_r with (R32 x); [lra|]. unfold Rdiv. rewrite Rmult_assoc, Rinv_l by lra.
      rewrite Rmult_1_l, Rmult_1_r. rewrite <- (rnd32_id x) at 1. apply rnd32_le. lra.
    - apply Rmult_le_reg_r with (- R32 x); [lra|]. unfold Rdiv.
      replace (rnd32 (R32 x - R32 y) * / R32 x * - R32 x)
        with (- rnd32 (R32 x - R32 y)) by (field; lra).
      apply Ropp_le_cancel. rewrite Ropp_involutive.
      replace (- (1 * - R32 x)) with (R32 x) by ring.
      rewrite <- (rnd32_id x) at 2. apply rnd32_le. lra. }
  apply rnd32_le in H1. rewrite rnd32_1 in H1.
  rewrite <- rnd32_100 at 1. apply rnd32_le. rewrite Rabs_pos_eq by lra. lra.
Qed.

Lemma pmc_within : forall P eb values m,
  valid_error_bound eb ->
  (forall e, eb = Relative e -> R32 e < 100 \/ same_sign values) ->
  pmc_accepts P (pmc_new eb) values m ->
  forall v, In v values -> within_bound check_slack eb v (pmc_model m).
Proof.
  intros P eb values m Hv Hrel Hacc v Hin.
  pose proof (pmc_accepts_inv _ _ _ _ Hacc eb Hv eq_refl) as [Heb Hlen Hchk Hkind].
  assert (Hne : values <> []) by (intros ->; destruct Hin).
  destruct (Hchk Hne) as [C1 C2].
  destruct Hkind as [(Hnil & _)|[(_ & Hmin & Hmax & Hsum & Hall)|
                     (Hmin & Hmax & Imin & Imax & Hall)]]; [contradiction| |].
  { left. right. right. split; [now apply Hall|]. unfold pmc_model. now apply average_nan. }
  destruct (Hall v Hin) as [L1 L2].
  set (a := pmc_model m) in *.
  pose proof (check_sound _ _ _ Hv C1) as S1. pose proof (check_sound _ _ _ Hv C2) as S2.
  assert (Hafin : finite32 a \/ a = pmc_min m /\ a = pmc_max m /\ f32_is_infinite a = true).
  { destruct S1 as [[(A & B & C)|[[A B]|[A B]]]|(A & B & C)]; auto; [|congruence].
    destruct S2 as [[(A2 & B2 & C2')|[[A2 B2]|[A2 B2]]]|(A2 & B2 & C2')]; auto; [|congruence].
    right. rewrite <- A, <- A2 in *. repeat split; auto; congruence. }
  destruct Hafin as [Ha|(Ea1 & Ea2 & Hinf)].
  2:{ left. right. left. rewrite <- Ea1 in L1. rewrite <- Ea2 in L2.
      assert (v = a).
      { destruct (infinite_shape a Hinf) as [s Hs]. rewrite Hs in *.
        rewrite f32_le_ext in L1, L2.
        destruct v as [t|[]|t ql Hql|t n f Hnf], s; cbn in L1, L2; try contradiction;
          reflexivity. }
      subst v. auto. }
  assert (Hfin : forall x, within_bound check_slack eb x a -> finite32 x).
  { intros x Hw. destruct Hw as [[(A & B & C)|[[A B]|[A B]]]|(A & B & C)]; auto.
    - exfalso. rewrite A in B. now apply infinite_not_finite in B.
    - exfalso. now apply nan_not_finite in B. }
  pose proof (Hfin _ S1) as Hlo. pose proof (Hfin _ S2) as Hhi.
  destruct (f32_between_finite _ _ _ Hlo Hhi L1 L2) as [Hvf [B1 B2]].
  assert (Hsame : forall x y, finite32 x -> finite32 y -> same_number x y -> R32 x = R32 y).
  { intros x y Hx Hy [(_ & _ & H)|[[-> _]|[H _]]]; auto. now apply nan_not_finite in H. }
  destruct eb as [e|e|].
  - (* Absolute: rounding is monotone. *)
    destruct Hv as [He He0].
    apply check_sound; [split; assumption|].
    apply (check_absolute_iff e v a He). right. repeat split; auto.
    assert (D1 : Rabs (rnd32 (R32 (pmc_min m) - R32 a)) <= R32 e).
    { apply (check_absolute_iff e _ _ He) in C1. destruct C1 as [C1|(_ & _ & C1)]; auto.
      rewrite (Hsame _ _ Hlo Ha C1), Rminus_diag_eq, rnd32_0, Rabs_R0 by reflexivity. lra. }
    assert (D2 : Rabs (rnd32 (R32 (pmc_max m) - R32 a)) <= R32 e).
    { apply (check_absolute_iff e _ _ He) in C2. destruct C2 as [C2|(_ & _ & C2)]; auto.
      rewrite (Hsame _ _ Hhi Ha C2), Rminus_diag_eq, rnd32_0, Rabs_R0 by reflexivity. lra. }
    apply Rabs_le_inv in D1. apply Rabs_le_inv in D2. apply Rabs_le.
    assert (rnd32 (R32 (pmc_min m) - R32 a) <= rnd32 (R32 v - R32 a)) by (apply rnd32_le; lra).
    assert (rnd32 (R32 v - R32 a) <= rnd32 (R32 (pmc_max m) - R32 a)) by (apply rnd32_le; lra).
    lra.
  - (* Relative. *)
    destruct Hv as [He [He0 He1]].
    assert (Hcase : 0 < R32 (pmc_min m) \/ R32 (pmc_max m) < 0
                    \/ (R32 (pmc_min m) = 0 /\ R32 (pmc_max m) = 0)
                    \/ (R32 (pmc_min m) <= 0 <= R32 (pmc_max m)
                        /\ (R32 (pmc_min m) < 0 \/ 0 < R32 (pmc_max m)))) by lra.
    assert (Hk : 0 <= (1 + check_slack) * (R32 e / 100)).
    { apply Rmult_le_pos; unfold check_slack; lra. }
    assert (W : forall x, finite32 x -> within_bound check_slack (Relative e) x a ->
              Rabs (R32 x - R32 a) <= (1 + check_slack) * (R32 e / 100) * Rabs (R32 x)).
    { intros x Hx [Hs|(_ & _ & H)]; [|exact H].
      rewrite (Hsame _ _ Hx Ha Hs), Rminus_diag_eq, Rabs_R0 by reflexivity.
      apply Rmult_le_pos; [exact Hk | apply Rabs_pos]. }
    pose proof (W _ Hlo S1) as W1. pose proof (W _ Hhi S2) as W2.
    destruct Hcase as [Hp|[Hn|[[Hz1 Hz2]|[Hst Hst2]]]].
    + right. repeat split; auto.
      apply between_relative with (lo := R32 (pmc_min m)) (hi := R32 (pmc_max m)); auto.
    + right. repeat split; auto.
      apply between_relative_neg with (lo := R32 (pmc_min m)) (hi := R32 (pmc_max m)); auto.
    + left. left. repeat split; auto.
      rewrite Hz1, Rabs_R0, Rmult_0_r in W1.
      assert (Rabs (0 - R32 a) = 0) by (pose proof (Rabs_pos (0 - R32 a)); lra).
      revert H. unfold Rabs. destruct (Rcase_abs _); intros H.
      all: lra.
    + exfalso.
      assert (H100 : R32 e < 100).
      { destruct (Hrel e eq_refl) as [H|[H|H]]; auto.
        - specialize (H _ Imin Hlo). lra.
        - specialize (H _ Imax Hhi). lra. }
      (* One of the extremes is on the other side of zero than the model, or is zero. *)
      assert (Far : forall x, finite32 x -> R32 x <> 0 ->
                (0 < R32 x /\ R32 a <= 0 \/ R32 x < 0 /\ 0 <= R32 a) ->
                is_value_within_error_bound (Relative e) x a = true -> False).
      { intros x Hx Hx0 Hs Hc.
        destruct (check_relative_true e x a He Hc) as [H|(_ & _ & _ & _ & H)].
        - apply Hsame in H; auto. lra.
        - pose proof (relative_far x a Hx0 Hs). lra. }
      assert (Zero : forall x, finite32 x -> R32 x = 0 ->
                within_bound check_slack (Relative e) x a -> R32 a = 0).
      { intros x Hx Hx0 Hw. specialize (W x Hx Hw). rewrite Hx0, Rabs_R0, Rmult_0_r in W.
        pose proof (Rabs_pos (0 - R32 a)).
        destruct (Req_dec (R32 a) 0) as [E|E]; [exact E|].
        assert (0 < Rabs (0 - R32 a)) by (apply Rabs_pos_lt; lra). lra. }
      destruct (Req_dec (R32 (pmc_min m)) 0) as [Z1|Z1].
      * pose proof (Zero _ Hlo Z1 S1).
        apply (Far (pmc_max m)); auto; lra.
      * destruct (Req_dec (R32 (pmc_max m)) 0) as [Z2|Z2].
        -- pose proof (Zero _ Hhi Z2 S2). apply (Far (pmc_min m)); auto; lra.
        -- destruct (Rle_or_lt (R32 a) 0).
           ++ apply (Far (pmc_max m)); auto; lra.
           ++ apply (Far (pmc_min m)); auto; lra.
  - (* Lossless. *)
    left. left. repeat split; auto.
    destruct S1 as [S1|(_ & _ & [])]. destruct S2 as [S2|(_ & _ & [])].
    apply Hsame in S1; auto. apply Hsame in S2; auto. lra.
Qed.

Lemma pmc_fit_all_within : forall P eb values m,
  valid_error_bound eb ->
  (forall e, eb = Relative e -> R32 e < 100 \/ same_sign values) ->
  pmc_fit_all P (pmc_new eb) values = Some m ->
  forall v, In v values -> within_bound check_slack eb v (pmc_model m).
Proof.
  intros P eb values m Hv Hr H. apply pmc_fit_all_accepts in H. eapply pmc_within; eauto.
Qed.

(** Rejected values leave no trace. *)
Lemma pmc_offer_fit : forall P offered m values m', pmc_offer_all P m offered = (values, m') ->
  pmc_fit_all P m values = Some m'.
Proof.
  intros P offered. induction offered as [|v offered IH]; intros m values m' H;
    cbn [pmc_offer_all] in H.
  - replace values with (@nil f32) by congruence. cbn [pmc_fit_all]. congruence.
  - destruct (pmc_fit_value P m v) as [a m1] eqn:E1.
    destruct (pmc_offer_all P m1 offered) as [others final] eqn:E2.
    pose proof (IH m1 others final E2) as F. destruct a.
    + replace values with (v :: others) by congruence. cbn [pmc_fit_all]. rewrite E1. congruence.
    + replace values with others by congruence. replace m with m1; [congruence|].
      unfold pmc_fit_value in E1. destruct (_ && _) in E1; congruence.
Qed.
Lemma pmc_offer_all_within : forall P eb offered values m,
  valid_error_bound eb ->
  (forall e, eb = Relative e -> R32 e < 100 \/ same_sign values) ->
  pmc_offer_all P (pmc_new eb) offered = (values, m) ->
  forall v, In v values -> within_bound check_slack eb v (pmc_model m).
Proof.
  intros P eb offered values m Hv Hr H. apply pmc_offer_fit in H. eapply pmc_fit_all_within; eauto.
Qed.

(** With a relative bound of 100% a zero can be represented by another number. *)
Lemma pmc_relative_100 : forall P, exists values m v,
  pmc_fit_all P (pmc_new (Relative f32_100)) values = Some m /\ In v values
  /\ forall slack, ~ within_bound slack (Relative f32_100) v (pmc_model m).
Proof.
  intros P.
  set (values := map from_bits [1065353217; 3212836864; 0]%Z).
  assert (Hsome : exists m, pmc_fit_all P (pmc_new (Relative f32_100)) values = Some m
                            /\ is_finite_strict 24 128 (pmc_model m) = true).
  { destruct (pmc_fit_all P (pmc_new (Relative f32_100)) values) as [m|] eqn:E.
    - exists m. split; [reflexivity|].
      assert (H : match pmc_fit_all P (pmc_new (Relative f32_100)) values with
                  | Some m => is_finite_strict 24 128 (pmc_model m) | None => false end = true)
        by (vm_compute; reflexivity).
      rewrite E in H. exact H.
    - assert (H : match pmc_fit_all P (pmc_new (Relative f32_100)) values with
                  | Some m => true | None => false end = true) by (vm_compute; reflexivity).
      rewrite E in H. discriminate. }
  destruct Hsome as (m & Hm & Hs).
  exists values, m, f32_zero. split; [exact Hm|]. split.
  { right. right. left. reflexivity. }
  clear Hm. intros slack Hw. set (a := pmc_model m) in *. clearbody a. clear values m.
  destruct a as [s|s|s pl Hpl|s mm e Hme]; try discriminate.
  assert (Hne : R32 (B754_finite 24 128 s mm e Hme) <> 0).
  { intros H. unfold R32, B2R in H. apply eq_0_F2R in H. destruct s; discriminate. }
  destruct Hw as [[(_ & _ & H)|[[H _]|[H _]]]|(_ & _ & H)]; try discriminate.
  - apply Hne. rewrite <- H. reflexivity.
  - change (R32 f32_zero) with 0 in H. rewrite Rabs_R0, Rmult_0_r in H.
    assert (0 < Rabs (0 - R32 (B754_finite 24 128 s mm e Hme))) by (apply Rabs_pos_lt; lra). lra.
Qed.
