(** Lemmas about the error bound check: its meaning on real numbers. *)
From Coq Require Import ZArith Reals Psatz Lra Bool Lia.
From Flocq Require Import Core IEEE754.BinarySingleNaN IEEE754.Binary IEEE754.Bits.
From Verif Require Import Model.Base Model.Float Model.ErrorBound Spec.ErrorBoundSpec
  Proofs.FloatProofs.
Open Scope R_scope.

Lemma same_number_refl : forall x, same_number x x.
Proof.
  intros x. unfold same_number.
  destruct (finite_or_not x) as [H|[H|H]]; [left | right; left | right; right]; auto.
Qed.

Lemma f64_of_f32_kind : forall x : f32,
  (finite32 x -> finite64 (f64_of_f32 x))
  /\ (forall s, x = B754_infinity 24 128 s -> f64_of_f32 x = B754_infinity 53 1024 s).
Proof.
  intros x. split.
  - intros H. apply f64_of_f32_finite. exact H.
  - intros s ->. reflexivity.
Qed.

Lemma f64_eq_finite_infinite : forall x s, finite64 x ->
  f64_eq x (B754_infinity 53 1024 s) = false /\ f64_eq (B754_infinity 53 1024 s) x = false.
Proof.
  intros x s H. unfold finite64 in H.
  destruct x; try discriminate; destruct s; split; reflexivity.
Qed.
Lemma f64_eq_nan : forall x y, f64_is_nan x = true \/ f64_is_nan y = true -> f64_eq x y = false.
Proof.
  intros x y [H|H].
  - destruct x; try discriminate. reflexivity.
  - destruct y; try discriminate. destruct x as [|[]| |]; reflexivity.
Qed.

Lemma infinite_not_finite : forall x, f32_is_infinite x = true -> ~ finite32 x.
Proof. intros [] H H2; discriminate. Qed.
Lemma nan_not_finite : forall x, f32_is_nan x = true -> ~ finite32 x.
Proof. intros [] H H2; discriminate. Qed.
Lemma nan_not_infinite : forall x, f32_is_nan x = true -> f32_is_infinite x <> true.
Proof. intros [] H H2; discriminate. Qed.
Lemma infinite_shape : forall x, f32_is_infinite x = true ->
  exists s, x = B754_infinity 24 128 s.
Proof. intros [] H; try discriminate. eauto. Qed.

Lemma equal_or_nan_iff : forall x y,
  equal_or_nan (f64_of_f32 x) (f64_of_f32 y) = true <-> same_number x y.
Proof.
  intros x y. unfold equal_or_nan. rewrite orb_true_iff, andb_true_iff, !f64_of_f32_nan.
  unfold same_number. split.
  - intros [H|H]; [|tauto].
    destruct (finite_or_not x) as [Hx|[Hx|Hx]].
    + destruct (finite_or_not y) as [Hy|[Hy|Hy]].
      * destruct (f64_of_f32_finite x Hx) as [Hx6 Hxr], (f64_of_f32_finite y Hy) as [Hy6 Hyr].
        apply (f64_eq_iff _ _ Hx6 Hy6) in H. rewrite Hxr, Hyr in H. tauto.
      * destruct (infinite_shape y Hy) as [t ->]. cbn [f64_of_f32] in H.
        destruct (f64_eq_finite_infinite (f64_of_f32 x) t) as [E _]; [|congruence].
        apply f64_of_f32_finite. exact Hx.
      * rewrite f64_eq_nan in H; [discriminate|]. right. now rewrite f64_of_f32_nan.
    + destruct (infinite_shape x Hx) as [s ->]. cbn [f64_of_f32] in H.
      destruct (finite_or_not y) as [Hy|[Hy|Hy]].
      * destruct (f64_eq_finite_infinite (f64_of_f32 y) s) as [_ E]; [|congruence].
        apply f64_of_f32_finite. exact Hy.
      * destruct (infinite_shape y Hy) as [t ->]. cbn [f64_of_f32] in H.
        right. left. split; [|reflexivity]. destruct s, t; try discriminate; reflexivity.
      * rewrite f64_eq_nan in H; [discriminate|]. right. now rewrite f64_of_f32_nan.
    + rewrite f64_eq_nan in H; [discriminate|]. left. now rewrite f64_of_f32_nan.
  - intros [(Hx & Hy & H)|[[-> Hi]|H]].
    + left. destruct (f64_of_f32_finite x Hx) as [Hx6 Hxr], (f64_of_f32_finite y Hy) as [Hy6 Hyr].
      apply (f64_eq_iff _ _ Hx6 Hy6). congruence.
    + left. destruct (infinite_shape y Hi) as [t ->]. destruct t; reflexivity.
    + tauto.
Qed.

Lemma finite_lt_max : forall r e, finite32 e -> Rabs r <= R32 e -> Rabs r < bpow radix2 128.
Proof.
  intros r e He H. pose proof (R32_lt_max e).
  apply Rle_lt_trans with (1 := H). eapply Rle_lt_trans; [apply Rle_abs|]. exact H0.
Qed.

(** ** The absolute check *)
Lemma check_absolute_iff : forall e x y, finite32 e ->
  (is_value_within_error_bound (Absolute e) x y = true
   <-> same_number x y
       \/ finite32 x /\ finite32 y /\ Rabs (rnd32 (R32 x - R32 y)) <= R32 e).
Proof.
  intros e x y He. unfold is_value_within_error_bound.
  destruct (equal_or_nan _ _) eqn:E.
  - apply equal_or_nan_iff in E. tauto.
  - assert (Hns : ~ same_number x y).
    { intros H. apply equal_or_nan_iff in H. congruence. }
    rewrite (f32_abs_le_iff _ _ He). split.
    + intros [Hf Hle]. right. destruct (f32_sub_finite _ _ Hf) as [Hx Hy].
      destruct (f32_sub_correct x y Hx Hy) as [_ H]. destruct (H Hf) as [_ Hr].
      rewrite <- Hr. auto.
    + intros [H|(Hx & Hy & Hle)]; [contradiction|].
      destruct (f32_sub_correct x y Hx Hy) as [H _].
      destruct (H (finite_lt_max _ _ He Hle)) as [Hf Hr]. rewrite Hr. auto.
Qed.

(** ** The relative check *)
Lemma format32_IZR : forall z, (Z.abs z <= 2 ^ 24)%Z -> generic_format radix2 fexp32 (IZR z).
Proof.
  intros z Hz. apply generic_format_FLT.
  destruct (Z.eq_dec (Z.abs z) (2 ^ 24)) as [E|E].
  - exists (Float radix2 (z / 2 ^ 24) 24).
    + unfold F2R. cbn [Fnum Fexp]. change (bpow radix2 24) with (IZR (2 ^ 24)).
      rewrite <- mult_IZR. f_equal. assert (z = 2 ^ 24 \/ z = - 2 ^ 24)%Z as [-> | ->] by lia;
        reflexivity.
    + cbn [Fnum]. assert (z = 2 ^ 24 \/ z = - 2 ^ 24)%Z as [-> | ->] by lia; reflexivity.
    + cbn [Fexp]. lia.
  - exists (Float radix2 z 0).
    + unfold F2R. cbn [Fnum Fexp bpow]. ring.
    + cbn [Fnum]. change (Zpower radix2 24) with (2 ^ 24)%Z. lia.
    + cbn [Fexp]. lia.
Qed.

Lemma f32_of_Z_exact : forall z, (Z.abs z <= 2 ^ 24)%Z ->
  finite32 (f32_of_Z z) /\ R32 (f32_of_Z z) = IZR z.
Proof.
  intros z Hz. unfold f32_of_Z.
  generalize (binary_normalize_correct 24 128 eq_refl eq_refl mode_NE z 0 false).
  change (SpecFloat.fexp 24 128) with fexp32. change (round_mode mode_NE) with ZnearestE.
  replace (F2R {| Fnum := z; Fexp := 0 |}) with (IZR z)
    by (unfold F2R; cbn [Fnum Fexp bpow]; ring).
  rewrite round_generic; [|typeclasses eauto | now apply format32_IZR].
  rewrite Rlt_bool_true.
  - intros (H1 & H2 & _). split; assumption.
  - rewrite <- abs_IZR. apply Rle_lt_trans with (IZR (2 ^ 24)); [now apply IZR_le|].
    change (IZR (2 ^ 24)) with (bpow radix2 24). now apply bpow_lt.
Qed.

Lemma f32_100_correct : finite32 f32_100 /\ R32 f32_100 = 100.
Proof. apply f32_of_Z_exact. cbn. lia. Qed.

Lemma f32_le_mul_abs : forall q e, finite32 e ->
  f32_le (f32_mul (f32_abs q) f32_100) e = true -> finite32 (f32_mul (f32_abs q) f32_100).
Proof.
  intros q e He H.
  assert (Hh : is_finite_strict 24 128 f32_100 = true) by (vm_compute; reflexivity).
  assert (Hsign : Bsign 24 128 f32_100 = false) by (vm_compute; reflexivity).
  set (h := f32_100) in *. clearbody h.
  destruct h as [s|s|s pl Hpl|s mh eh Hb]; try discriminate. cbn in Hsign. subst s.
  assert (Hs : f32_is_nan (f32_mul (f32_abs q) (B754_finite 24 128 false mh eh Hb)) = true
    \/ f32_mul (f32_abs q) (B754_finite 24 128 false mh eh Hb) = B754_infinity 24 128 false
    \/ finite32 (f32_mul (f32_abs q) (B754_finite 24 128 false mh eh Hb))).
  { destruct q as [s|s|s pl Hpl|s m ex Hme].
    - right. right. reflexivity.
    - right. left. reflexivity.
    - left. reflexivity.
    - right.
      assert (Ha : f32_abs (B754_finite 24 128 s m ex Hme) = B754_finite 24 128 false m ex Hme)
        by reflexivity.
      rewrite Ha.
      generalize (Bmult_correct 24 128 eq_refl eq_refl binop_nan_pl32 mode_NE
        (B754_finite 24 128 false m ex Hme) (B754_finite 24 128 false mh eh Hb)).
      set (prod := Bmult _ _ _ _ _ _ _ _).
      change (f32_mul (B754_finite 24 128 false m ex Hme)
                (B754_finite 24 128 false mh eh Hb)) with prod.
      case Rlt_bool_spec; intros Hlt.
      + intros (_ & Hf & _). right. exact Hf.
      + intros Hov. left. clearbody prod. destruct prod; try discriminate.
        cbn in Hov. congruence. }
  destruct Hs as [Hs|[Hs|Hs]]; [| |exact Hs]; exfalso.
  - destruct (f32_mul _ _); try discriminate. 
  - rewrite Hs in H. unfold finite32 in He. destruct e; discriminate.
Qed.

Lemma f32_div_zero : forall x s, ~ finite32 (f32_div x (B754_zero 24 128 s)).
Proof.
  intros x s. unfold finite32, f32_div, b32_div, Bdiv.
  destruct x as [t|t|t ql Hql|t n f Hnf]; cbn; try discriminate; destruct s, t; cbn; discriminate.
Qed.

(** What an accepted relative check computes. *)
Lemma check_relative_true : forall e x y, finite32 e ->
  is_value_within_error_bound (Relative e) x y = true ->
  same_number x y
  \/ ~ same_number x y /\ finite32 x /\ finite32 y /\ R32 x <> 0 /\
     rnd32 (Rabs (rnd32 (rnd32 (R32 x - R32 y) / R32 x)) * 100) <= R32 e.
Proof.
  intros e x y He. unfold is_value_within_error_bound.
  destruct (equal_or_nan _ _) eqn:E.
  - apply equal_or_nan_iff in E. tauto.
  - assert (Hns : ~ same_number x y).
    { intros H. apply equal_or_nan_iff in H. congruence. }
    intros H. right. split; [exact Hns|].
    pose proof (f32_le_mul_abs _ _ He H) as Hm.
    pose proof (f32_mul_finite_l _ _ Hm) as Ha.
    assert (Hq : finite32 (f32_div (f32_sub x y) x)).
    { unfold finite32, f32_abs, b32_abs in *. rewrite is_finite_Babs in Ha. exact Ha. }
    pose proof (f32_div_finite_l _ _ Hq) as Hd.
    destruct (f32_sub_finite _ _ Hd) as [Hx Hy].
    assert (Hx0 : R32 x <> 0).
    { intros H0. destruct (R32_zero x Hx H0) as [s Hs]. revert Hq. rewrite Hs.
      apply f32_div_zero. }
    destruct (f32_sub_correct x y Hx Hy) as [_ Hsub]. destruct (Hsub Hd) as [_ Hsubr].
    destruct (f32_div_correct _ x Hd Hx0) as [_ Hdiv]. destruct (Hdiv Hq) as [_ Hdivr].
    destruct f32_100_correct as [Hhf Hhr].
    destruct (f32_mul_correct _ _ Ha Hhf) as [_ Hmul]. destruct (Hmul Hm) as [_ Hmulr].
    apply (f32_le_iff _ _ Hm He) in H.
    repeat split; auto.
    rewrite Hmulr, Hhr in H. unfold R32 at 1, f32_abs, b32_abs in H.
    rewrite B2R_Babs in H.
    change (B2R 24 128 (f32_div (f32_sub x y) x)) with (R32 (f32_div (f32_sub x y) x)) in H.
    rewrite Hdivr, Hsubr in H. exact H.
Qed.

(** ** Soundness *)
Lemma u32_small : 0 < u32r <= / 16777216.
Proof. unfold u32r. lra. Qed.

Lemma bpow_m126_small : bpow radix2 (-126) <= / 134217728.
Proof.
  change (/ 134217728) with (bpow radix2 (-27)). apply bpow_le. lia.
Qed.

(** The three rounding errors of a relative check. *)
Lemma relative_chain : forall x y, R32 x <> 0 -> R32 x <> R32 y ->
  let D := Rabs (R32 x - R32 y) in
  let V := Rabs (R32 x) in
  let M := rnd32 (Rabs (rnd32 (rnd32 (R32 x - R32 y) / R32 x)) * 100) in
  (1 - u32r) * (1 - u32r) * (1 - u32r) * D * 100 <= M * V
  /\ M * V <= (1 + u32r) * (1 + u32r) * (1 + u32r) * D * 100.
Proof.
  intros x y Hx Hxy D V M.
  assert (HV : 0 < V) by (now apply Rabs_pos_lt).
  assert (Hgap : / 33554432 * V <= D) by (apply format32_gap; auto using format32).
  pose proof (sub_error x y) as Hsub. fold D in Hsub.
  set (f := rnd32 (R32 x - R32 y)) in *.
  set (F := Rabs f).
  assert (HF : (1 - u32r) * D <= F <= (1 + u32r) * D).
  { pose proof (Rabs_triang_inv f (R32 x - R32 y)). pose proof (Rabs_triang_inv (R32 x - R32 y) f).
    rewrite (Rabs_minus_sym (R32 x - R32 y) f) in H0. fold D F in H, H0.
    unfold u32r in *. lra. }
  assert (HFV : Rabs (f / R32 x) = F / V).
  { unfold Rdiv. rewrite Rabs_mult, Rabs_inv. reflexivity. }
  assert (HFV' : / 67108864 <= F / V).
  { apply Rmult_le_reg_r with V; [exact HV|]. unfold Rdiv.
    rewrite Rmult_assoc, Rinv_l, Rmult_1_r by lra. unfold u32r in *. lra. }
  assert (Hq : Rabs (rnd32 (f / R32 x) - f / R32 x) <= u32r * (F / V)).
  { rewrite <- HFV. apply rnd32_error. rewrite HFV.
    pose proof bpow_m126_small. lra. }
  set (Q := Rabs (rnd32 (f / R32 x))).
  assert (HQ : (1 - u32r) * (F / V) <= Q <= (1 + u32r) * (F / V)).
  { pose proof (Rabs_triang_inv (rnd32 (f / R32 x)) (f / R32 x)).
    pose proof (Rabs_triang_inv (f / R32 x) (rnd32 (f / R32 x))).
    rewrite (Rabs_minus_sym (f / R32 x)) in H0. rewrite HFV in H, H0. fold Q in H, H0. lra. }
  assert (Hm : Rabs (M - Q * 100) <= u32r * (Q * 100)).
  { assert (HQ0 : 0 <= Q) by apply Rabs_pos.
    unfold M. fold Q. rewrite <- (Rabs_pos_eq (Q * 100)) at 3 by lra.
    apply rnd32_error. rewrite Rabs_pos_eq by lra.
    pose proof bpow_m126_small. unfold u32r in *. lra. }
  assert (HQV : (1 - u32r) * F <= Q * V <= (1 + u32r) * F).
  { replace ((1 - u32r) * F) with ((1 - u32r) * (F / V) * V) by (field; lra).
    replace ((1 + u32r) * F) with ((1 + u32r) * (F / V) * V) by (field; lra).
    split; apply Rmult_le_compat_r; lra. }
  assert (HM : (1 - u32r) * (Q * 100) <= M <= (1 + u32r) * (Q * 100)).
  { apply Rabs_le_inv in Hm. lra. }
  assert (HMV : (1 - u32r) * (Q * V * 100) <= M * V <= (1 + u32r) * (Q * V * 100)).
  { replace ((1 - u32r) * (Q * V * 100)) with ((1 - u32r) * (Q * 100) * V) by ring.
    replace ((1 + u32r) * (Q * V * 100)) with ((1 + u32r) * (Q * 100) * V) by ring.
    split; apply Rmult_le_compat_r; lra. }
  unfold u32r in *. lra.
Qed.

Lemma check_sound : forall eb x y, valid_error_bound eb ->
  is_value_within_error_bound eb x y = true -> within_bound check_slack eb x y.
Proof.
  intros [e|e|] x y Hv H.
  - destruct Hv as [He He0]. apply (check_absolute_iff e x y He) in H.
    destruct H as [H|(Hx & Hy & H)]; [left; exact H|]. right. repeat split; auto.
    pose proof (sub_error x y) as Hs.
    set (D := R32 x - R32 y) in *.
    pose proof (Rabs_triang_inv D (rnd32 D)) as Ht. rewrite (Rabs_minus_sym D) in Ht.
    unfold check_slack, u32r in *. lra.
  - destruct Hv as [He [He0 He1]]. destruct (check_relative_true e x y He H)
      as [Hs|(Hns & Hx & Hy & Hx0 & Hm)]; [left; exact Hs|]. right. repeat split; auto.
    assert (Hne : R32 x <> R32 y) by (intros Heq; apply Hns; left; auto).
    destruct (relative_chain x y Hx0 Hne) as [H1 _]. cbv zeta in H1.
    assert (HV : 0 < Rabs (R32 x)) by (now apply Rabs_pos_lt).
    set (V := Rabs (R32 x)) in *. set (D := Rabs (R32 x - R32 y)) in *.
    apply (Rmult_le_compat_r V) in Hm; [|lra].
    replace ((1 + check_slack) * (R32 e / 100) * V)
      with ((1 + check_slack) / 100 * (R32 e * V)) by field.
    assert (0 <= D) by apply Rabs_pos.
    unfold check_slack, u32r in *. lra.
  - left. apply equal_or_nan_iff. exact H.
Qed.

(** ** Completeness *)
Lemma check_complete_absolute : forall e x y, finite32 e -> finite32 x -> finite32 y ->
  Rabs (R32 x - R32 y) <= R32 e -> is_value_within_error_bound (Absolute e) x y = true.
Proof.
  intros e x y He Hx Hy H. apply check_absolute_iff; [exact He|]. right. repeat split; auto.
  rewrite <- rnd32_abs, <- (rnd32_id e). now apply rnd32_le.
Qed.

Lemma same_number_check : forall eb x y,
  same_number x y -> is_value_within_error_bound eb x y = true.
Proof.
  intros eb x y H. apply equal_or_nan_iff in H.
  destruct eb; unfold is_value_within_error_bound; rewrite H; reflexivity.
Qed.

Lemma check_complete_relative : forall e x y,
  finite32 e -> 0 < R32 e <= 100 -> finite32 x -> finite32 y ->
  Rabs (R32 x - R32 y) <= (1 - check_slack) * (R32 e / 100) * Rabs (R32 x) ->
  is_value_within_error_bound (Relative e) x y = true.
Proof.
  intros e x y He He1 Hx Hy H.
  destruct (Req_dec (R32 x) (R32 y)) as [Heq|Hne].
  { apply same_number_check. left. auto. }
  destruct (Req_dec (R32 x) 0) as [H0|H0].
  { exfalso. rewrite H0, Rabs_R0, Rmult_0_r in H.
    assert (0 < Rabs (0 - R32 y)) by (apply Rabs_pos_lt; lra). lra. }
  destruct (relative_chain x y H0 Hne) as [_ H2]. cbv zeta in H2.
  set (M := rnd32 (Rabs _ * 100)) in *.
  assert (HV : 0 < Rabs (R32 x)) by (now apply Rabs_pos_lt).
  assert (HMe : M <= R32 e).
  { apply Rmult_le_reg_r with (Rabs (R32 x)); [exact HV|].
    set (V := Rabs (R32 x)) in *. set (D := Rabs (R32 x - R32 y)) in *.
    replace ((1 - check_slack) * (R32 e / 100) * V)
      with ((1 - check_slack) / 100 * (R32 e * V)) in H by field.
    assert (0 < R32 e * V) by (apply Rmult_lt_0_compat; lra).
    unfold check_slack, u32r in *. lra. }
  (* Nothing overflows. *)
  assert (HD2 : Rabs (R32 x - R32 y) <= Rabs (R32 x)).
  { eapply Rle_trans; [exact H|]. rewrite <- (Rmult_1_l (Rabs (R32 x))) at 2.
    apply Rmult_le_compat_r; [lra|]. unfold check_slack. lra. }
  assert (Hov1 : Rabs (rnd32 (R32 x - R32 y)) <= Rabs (R32 x)).
  { rewrite <- rnd32_abs. pattern (R32 x) at 2. rewrite <- (rnd32_id x).
    rewrite <- (rnd32_abs (R32 x)). now apply rnd32_le. }
  destruct (f32_sub_correct x y Hx Hy) as [Hsub _]. 
  edestruct Hsub as [Hsf Hsr].
  { eapply Rle_lt_trans; [exact Hov1|]. apply R32_lt_max. }
  assert (Hov2 : Rabs (rnd32 (R32 (f32_sub x y) / R32 x)) <= 1).
  { rewrite <- rnd32_abs. replace 1 with (rnd32 1).
    - apply rnd32_le. unfold Rdiv. rewrite Rabs_mult, Rabs_inv, Hsr.
      apply Rmult_le_reg_r with (Rabs (R32 x)); [exact HV|].
      rewrite Rmult_assoc, Rinv_l by lra. lra.
    - unfold rnd32. apply round_generic; [typeclasses eauto|].
      change 1 with (bpow radix2 0). apply generic_format_bpow. unfold FLT_exp. lia. }
  assert (Hbig : 1024 < bpow radix2 128).
  { change 1024 with (bpow radix2 10). now apply bpow_lt. }
  destruct (f32_div_correct (f32_sub x y) x Hsf H0) as [Hdiv _]. 
  edestruct Hdiv as [Hdf Hdr].
  { lra. }
  set (q := f32_div (f32_sub x y) x) in *.
  assert (Ha : finite32 (f32_abs q)).
  { unfold finite32, f32_abs, b32_abs. rewrite is_finite_Babs. exact Hdf. }
  assert (Har : R32 (f32_abs q) = Rabs (R32 q)).
  { unfold R32, f32_abs, b32_abs. apply B2R_Babs. }
  destruct f32_100_correct as [Hhf Hhr].
  assert (HM : M = rnd32 (R32 (f32_abs q) * R32 f32_100)).
  { unfold M. rewrite Har, Hhr, Hdr, Hsr. reflexivity. }
  assert (HM0 : 0 <= M).
  { unfold M. rewrite <- rnd32_0 at 1. apply rnd32_le.
    apply Rmult_le_pos; [apply Rabs_pos | lra]. }
  destruct (f32_mul_correct _ _ Ha Hhf) as [Hmul _]. 
  edestruct Hmul as [Hmf Hmr].
  { rewrite <- HM. rewrite Rabs_pos_eq by exact HM0. lra. }
  unfold is_value_within_error_bound. destruct (equal_or_nan _ _); [reflexivity|].
  apply (f32_le_iff _ _ Hmf He). fold q. rewrite Hmr, <- HM. exact HMe.
Qed.

(** ** Constructors *)
Lemma try_new_absolute_iff : forall value,
  try_new_absolute value = (if Bool.bool_dec (is_finite 24 128 value) true
                            then if Rlt_dec 0 (R32 value) then Ok (Absolute value) else Err
                            else Err).
Proof.
  intros v. unfold try_new_absolute.
  destruct (Bool.bool_dec (is_finite 24 128 v) true) as [Hf|Hf].
  - rewrite Hf. cbn [negb orb].
    assert (Hz : finite32 f32_zero) by reflexivity.
    destruct (f32_le v f32_zero) eqn:E, (Rlt_dec 0 (R32 v)) as [Hr|Hr]; try reflexivity; exfalso.
    + apply (f32_le_iff _ _ Hf Hz) in E. cbn in E. lra.
    + assert (f32_le v f32_zero = true); [|congruence].
      apply (f32_le_iff _ _ Hf Hz). cbn. lra.
  - destruct (is_finite 24 128 v); [congruence|]. reflexivity.
Qed.

Lemma try_new_relative_iff : forall value,
  try_new_relative value = (if Bool.bool_dec (is_finite 24 128 value) true
                            then if Rlt_dec 0 (R32 value) then
                                   if Rle_dec (R32 value) 100 then Ok (Relative value) else Err
                                 else Err
                            else Err).
Proof.
  intros v. unfold try_new_relative.
  assert (Hz : finite32 f32_zero) by reflexivity.
  destruct f32_100_correct as [Hhf Hhr].
  destruct (Bool.bool_dec (is_finite 24 128 v) true) as [Hf|Hf].
  - pose proof (f32_lt_iff _ _ Hz Hf) as H1. pose proof (f32_le_iff _ _ Hf Hhf) as H2.
    rewrite Hhr in H2. change (R32 f32_zero) with 0 in H1.
    destruct (f32_lt f32_zero v), (f32_le v f32_100), (Rlt_dec 0 (R32 v)), (Rle_dec (R32 v) 100);
      cbn; try reflexivity; exfalso; intuition discriminate.
  - destruct v as [s|s|s pl Hpl|s m ex Hme]; try (exfalso; now apply Hf).
    + destruct s; reflexivity.
    + reflexivity.
Qed.

Lemma try_new_valid : forall eb value,
  (try_new_absolute value = Ok eb <-> eb = Absolute value /\ valid_error_bound eb)
  /\ (try_new_relative value = Ok eb <-> eb = Relative value /\ valid_error_bound eb).
Proof.
  intros eb value. rewrite try_new_absolute_iff, try_new_relative_iff. split; split.
  - destruct (bool_dec _ _); [|discriminate]. destruct (Rlt_dec _ _); [|discriminate].
    intros H. injection H as <-. repeat split; assumption.
  - intros [-> [Hf Hr]]. unfold finite32 in Hf.
    destruct (bool_dec _ _); [|contradiction]. destruct (Rlt_dec _ _); [reflexivity|contradiction].
  - destruct (bool_dec _ _); [|discriminate]. destruct (Rlt_dec _ _); [|discriminate].
    destruct (Rle_dec _ _); [|discriminate].
    intros H. injection H as <-. repeat split; assumption.
  - intros [-> [Hf [Hr Hr2]]]. unfold finite32 in Hf.
    destruct (bool_dec _ _); [|contradiction]. destruct (Rlt_dec _ _); [|contradiction].
    destruct (Rle_dec _ _); [reflexivity|contradiction].
Qed.
