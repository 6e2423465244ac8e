(** Lemmas about values that MacaqueV rewrites within an error bound. *)
From Coq Require Import ZArith Reals Psatz Lra Bool Lia List.
From Flocq Require Import Core IEEE754.BinarySingleNaN IEEE754.Binary IEEE754.Bits Mult_error.
From Verif Require Import Model.Base Model.Float Model.ErrorBound Model.Bits Model.MacaqueV
  Spec.ErrorBoundSpec Spec.PlatformSpec Spec.MacaqueVSpec Proofs.FloatProofs Proofs.ErrorBoundProofs
  Proofs.MacaqueVProofs Proofs.MaskProofs Proofs.TimestampsProofs.
Import ListNotations.
Open Scope R_scope.

Lemma i32_id : forall z, (- 2 ^ 31 <= z < 2 ^ 31)%Z -> i32 z = z.
Proof. intros z H. unfold i32. rewrite Z.mod_small by lia. lia. Qed.

Lemma f32_pow2_correct : forall k, (-126 <= k <= 127)%Z ->
  finite32 (f32_pow2 k) /\ R32 (f32_pow2 k) = bpow radix2 k.
Proof.
  intros k Hk. unfold f32_pow2.
  generalize (binary_normalize_correct 24 128 eq_refl eq_refl mode_NE 1 k false).
  replace (F2R {| Fnum := 1; Fexp := k |}) with (bpow radix2 k)
    by (unfold F2R; cbn [Fnum Fexp]; ring).
  change (SpecFloat.fexp 24 128) with fexp32. change (round_mode mode_NE) with ZnearestE.
  rewrite round_generic; [|typeclasses eauto|].
  2:{ apply generic_format_bpow. unfold FLT_exp. lia. }
  rewrite Rlt_bool_true.
  - intros (H1 & H2 & _). split; assumption.
  - rewrite Rabs_pos_eq by apply bpow_ge_0. apply bpow_lt. lia.
Qed.

(** Either the first rewrite keeps the value or the second one stays within the deviation. *)
Lemma rewrite_core : forall P v dev, good_log2 P ->
  finite32 v -> bpow radix2 (-126) <= Rabs (R32 v) ->
  finite32 dev -> bpow radix2 (get_exponent v - 23) <= R32 dev ->
  let eps := f32_div dev (f32_pow2 (get_exponent v)) in
  let pos := i32 (23 - log2_abs_floor P eps) in
  let w := from_bits (rewrite_bits_by_n (to_bits v) (i32 (pos - 1))) in
  from_bits (rewrite_bits_by_n (to_bits v) pos) = v
  \/ finite32 w /\ Rabs (R32 v - R32 w) <= R32 dev.
Proof.
  intros P v dev HP Hv Hn Hdev Hlo eps pos w.
  destruct (mask_error v 0 Hv Hn ltac:(lia)) as (Hexp & [Hm1 Hm2] & _).
  set (ex := get_exponent v) in *.
  destruct (Rle_or_lt (bpow radix2 (ex + 1)) (R32 dev)) as [Hbig|Hsmall].
  - right. unfold w. destruct (mask_shrinks v (i32 (pos - 1)) Hv) as [Hf Hs].
    split; [exact Hf|]. lra.
  - destruct (f32_pow2_correct ex Hexp) as [Hpf Hpr].
    assert (Hp0 : 0 < bpow radix2 ex) by apply bpow_gt_0.
    assert (Hquot : R32 dev / bpow radix2 ex = R32 dev * bpow radix2 (- ex)).
    { rewrite bpow_opp. reflexivity. }
    assert (Hq : bpow radix2 (-23) <= R32 dev / bpow radix2 ex < 2).
    { rewrite Hquot. split.
      - replace (-23)%Z with (ex - 23 + - ex)%Z by lia. rewrite bpow_plus.
        apply Rmult_le_compat_r; [apply bpow_ge_0 | exact Hlo].
      - replace 2 with (bpow radix2 (ex + 1 + - ex))
          by (replace (ex + 1 + - ex)%Z with 1%Z by lia; reflexivity).
        rewrite bpow_plus. apply Rmult_lt_compat_r; [apply bpow_gt_0 | exact Hsmall]. }
    assert (Hdev0 : R32 dev <> 0).
    { pose proof (bpow_gt_0 radix2 (ex - 23)). lra. }
    assert (Hexact : rnd32 (R32 dev / R32 (f32_pow2 ex)) = R32 dev / bpow radix2 ex).
    { rewrite Hpr, Hquot. unfold rnd32. apply round_generic; [typeclasses eauto|].
      apply mult_bpow_exact_FLT; [apply format32|].
      assert (ex - 22 <= mag radix2 (R32 dev))%Z.
      { apply mag_ge_bpow. rewrite Rabs_pos_eq by (pose proof (bpow_gt_0 radix2 (ex - 23)); lra).
        replace (ex - 22 - 1)%Z with (ex - 23)%Z by lia. exact Hlo. }
      lia. }
    destruct (f32_div_correct dev (f32_pow2 ex) Hdev) as [Hdiv _]; [lra|].
    destruct Hdiv as [Hef Her].
    { rewrite Hexact, Rabs_pos_eq by (pose proof (bpow_gt_0 radix2 (-23)); lra).
      apply Rlt_trans with 2; [lra|]. change 2 with (bpow radix2 1). now apply bpow_lt. }
    rewrite Hexact in Her. fold eps in Hef, Her.
    destruct (HP eps Hef) as [HP1 HP2].
    set (L := log2_abs_floor P eps) in *.
    destruct (Rlt_or_le (R32 eps) 1) as [He1|He1].
    + destruct HP1 as [HL1 HL2]; [rewrite Her in *; lra|].
      assert (Hpos : pos = (23 - L)%Z) by (apply i32_id; lia).
      destruct (Z.eq_dec L 23) as [HL23|HL23].
      * left. rewrite Hpos, HL23. change (23 - 23)%Z with 0%Z.
        destruct (mask_error v 0 Hv Hn ltac:(lia)) as (_ & _ & _ & _ & H). now apply H.
      * right. unfold w. rewrite Hpos. rewrite i32_id by lia.
        destruct (mask_error v (23 - L - 1) Hv Hn ltac:(lia)) as (_ & _ & Hf & Herr & _).
        split; [exact Hf|]. fold ex in Herr.
        replace (ex - 23 + (23 - L - 1))%Z with (- (L + 1) + ex)%Z in Herr by lia.
        rewrite bpow_plus in Herr.
        apply (Rmult_le_compat_r (bpow radix2 ex)) in HL2; [|lra].
        replace (R32 dev) with (R32 eps * bpow radix2 ex); [lra|].
        rewrite Her. field. lra.
    + assert (HL : (0 <= L <= 1)%Z) by (apply HP2; rewrite Her in *; lra).
      assert (Hpos : pos = (23 - L)%Z) by (apply i32_id; lia).
      right. unfold w. rewrite Hpos. rewrite i32_id by lia.
      destruct (mask_error v (23 - L - 1) Hv Hn ltac:(lia)) as (_ & _ & Hf & Herr & _).
      split; [exact Hf|]. fold ex in Herr. apply Rlt_le. eapply Rlt_le_trans; [exact Herr|].
      apply Rle_trans with (bpow radix2 ex); [apply bpow_le; lia|].
      rewrite Her in He1. apply (Rmult_le_compat_r (bpow radix2 ex)) in He1; [|lra].
      unfold Rdiv in He1. rewrite Rmult_assoc, Rinv_l in He1 by lra. lra.
Qed.

(** ** The deviation of an absolute bound *)
Lemma R64_0_99 : finite64 f64_0_99 /\ R64 f64_0_99 = 8917127262193582 / 9007199254740992.
Proof.
  unfold finite64, R64, f64_0_99, b64_of_bits, binary_float_of_bits.
  rewrite is_finite_FF2B, B2R_FF2B.
  replace (binary_float_of_bits_aux 52 11 4607092346807469998)
    with (F754_finite false 8917127262193582 (-53)) by (vm_compute; reflexivity).
  split; [reflexivity|]. cbn [FF2R cond_Zopp]. unfold F2R. cbn [Fnum Fexp].
  change (bpow radix2 (-53)) with (/ 9007199254740992). reflexivity.
Qed.
Lemma R64_100_1 : finite64 f64_100_1 /\ R64 f64_100_1 = 7043911292184166 / 70368744177664.
Proof.
  unfold finite64, R64, f64_100_1, b64_of_bits, binary_float_of_bits.
  rewrite is_finite_FF2B, B2R_FF2B.
  replace (binary_float_of_bits_aux 52 11 4636744328229054054)
    with (F754_finite false 7043911292184166 (-46)) by (vm_compute; reflexivity).
  split; [reflexivity|]. cbn [FF2R cond_Zopp]. unfold F2R. cbn [Fnum Fexp].
  change (bpow radix2 (-46)) with (/ 70368744177664). reflexivity.
Qed.

Lemma bpow_32_64 : forall x, Rabs x < bpow radix2 128 -> Rabs x < bpow radix2 1024.
Proof. intros x H. eapply Rlt_trans; [exact H|]. now apply bpow_lt. Qed.

Lemma rnd64_R32 : forall x, rnd64 (R32 x) = R32 x.
Proof.
  intros x. unfold rnd64. apply round_generic; [typeclasses eauto|].
  apply format32_64, format32.
Qed.

Lemma deviation_absolute : forall e v, finite32 e -> bpow radix2 (-125) <= R32 e ->
  let dev := f32_of_f64 (maximum_allowed_deviation (Absolute e) v) in
  finite32 dev /\ 98 / 100 * R32 e <= R32 dev <= R32 e.
Proof.
  intros e v He Hlo dev.
  destruct (f64_of_f32_finite e He) as [He6 Her]. destruct R64_0_99 as [Hcf Hcr].
  pose proof (bpow_gt_0 radix2 (-125)) as Hb.
  set (c := 8917127262193582 / 9007199254740992) in *.
  assert (Hc : 98 / 100 < c - 1 / 1000 /\ c < 1) by (unfold c; lra).
  assert (Hx : 0 < R32 e * c <= R32 e).
  { split; [apply Rmult_lt_0_compat; lra|]. rewrite <- (Rmult_1_r (R32 e)) at 2.
    apply Rmult_le_compat_l; lra. }
  assert (H64 : 0 <= rnd64 (R32 e * c) <= R32 e).
  { split.
    - rewrite <- rnd64_0. apply rnd64_le. lra.
    - rewrite <- (rnd64_R32 e) at 2. apply rnd64_le. lra. }
  assert (Hsmall : Rabs (R32 e) < bpow radix2 128) by apply R32_lt_max.
  rewrite Rabs_pos_eq in Hsmall by lra.
  destruct (f64_mul_correct (f64_of_f32 e) f64_0_99 He6 Hcf) as [Hmf Hmr].
  { rewrite Her, Hcr. apply bpow_32_64. rewrite Rabs_pos_eq by lra. lra. }
  rewrite Her, Hcr in Hmr.
  assert (H32 : rnd32 (rnd64 (R32 e * c)) <= R32 e).
  { rewrite <- (rnd32_id e) at 2. apply rnd32_le. lra. }
  assert (H320 : 0 <= rnd32 (rnd64 (R32 e * c))).
  { rewrite <- rnd32_0. apply rnd32_le. lra. }
  destruct (f32_of_f64_correct (f64_mul (f64_of_f32 e) f64_0_99) Hmf) as [Hdf Hdr].
  { rewrite Hmr, Rabs_pos_eq by lra. lra. }
  rewrite Hmr in Hdr. unfold dev. cbn [maximum_allowed_deviation].
  split; [exact Hdf|]. rewrite Hdr. split; [|exact H32].
  assert (E64 : Rabs (rnd64 (R32 e * c) - R32 e * c) <= u64r * Rabs (R32 e * c)).
  { apply rnd64_error. rewrite Rabs_pos_eq by lra.
    apply Rle_trans with (bpow radix2 (-126)); [apply bpow_le; lia|].
    change (-126)%Z with (-125 + -1)%Z. rewrite bpow_plus. change (bpow radix2 (-1)) with (/ 2).
    assert (R32 e * / 2 <= R32 e * c) by (apply Rmult_le_compat_l; lra). lra. }
  rewrite (Rabs_pos_eq (R32 e * c)) in E64 by lra. apply Rabs_le_inv in E64.
  assert (Hec : (98 / 100 + 1 / 1000) * R32 e <= R32 e * c).
  { rewrite (Rmult_comm (R32 e)). apply Rmult_le_compat_r; lra. }
  assert (E32 : Rabs (rnd32 (rnd64 (R32 e * c)) - rnd64 (R32 e * c))
                <= u32r * Rabs (rnd64 (R32 e * c))).
  { apply rnd32_error. rewrite Rabs_pos_eq by lra.
    change (-126)%Z with (-125 + -1)%Z. rewrite bpow_plus. change (bpow radix2 (-1)) with (/ 2).
    unfold u64r in *. lra. }
  rewrite (Rabs_pos_eq (rnd64 _)) in E32 by lra. apply Rabs_le_inv in E32.
  unfold u32r, u64r in *. lra.
Qed.

(** ** The deviation of a relative bound *)
Lemma deviation_relative : forall e v, finite32 e -> / 80000 <= R32 e <= 100 ->
  finite32 v -> bpow radix2 (-100) <= Rabs (R32 v) ->
  let dev := f32_of_f64 (maximum_allowed_deviation (Relative e) (f64_of_f32 v)) in
  finite32 dev /\ R32 e / (1002 / 10) * Rabs (R32 v) <= R32 dev <= R32 e / 100 * Rabs (R32 v).
Proof.
  intros e v He He1 Hv Hlo dev.
  destruct (f64_of_f32_finite e He) as [He6 Her]. destruct (f64_of_f32_finite v Hv) as [Hv6 Hvr].
  destruct R64_100_1 as [Hcf Hcr].
  set (c := 7043911292184166 / 70368744177664) in *.
  assert (Hc : 1001 / 10 - / 100000 <= c <= 1001 / 10 + / 100000) by (unfold c; lra).
  (* e / c *)
  set (q := R32 e / c).
  assert (Hqe : q * c = R32 e) by (unfold q; field; lra).
  assert (Hq : R32 e / (10011 / 100) <= q <= R32 e / (10009 / 100)).
  { assert (0 < / c) by (apply Rinv_0_lt_compat; lra).
    unfold q, Rdiv. split; apply Rmult_le_compat_l; try lra; apply Rinv_le_contravar; lra. }
  assert (Hq1 : / 10000000 <= q <= 1) by lra.
  assert (Eq : Rabs (rnd64 q - q) <= u64r * Rabs q).
  { apply rnd64_error. rewrite Rabs_pos_eq by lra.
    apply Rle_trans with (bpow radix2 (-30)); [apply bpow_le; lia|].
    change (bpow radix2 (-30)) with (/ 1073741824). lra. }
  rewrite (Rabs_pos_eq q) in Eq by lra. apply Rabs_le_inv in Eq.
  assert (Hbig : 1024 < bpow radix2 128).
  { change 1024 with (bpow radix2 10). now apply bpow_lt. }
  destruct (f64_div_correct (f64_of_f32 e) f64_100_1 He6) as [Hdf Hdr].
  { rewrite Hcr. lra. }
  { rewrite Her, Hcr. fold q. apply bpow_32_64. rewrite Rabs_pos_eq; unfold u64r in *; lra. }
  rewrite Her, Hcr in Hdr. fold q in Hdr.
  (* v * (e / c) *)
  set (V := Rabs (R32 v)) in *.
  pose proof (bpow_gt_0 radix2 (-100)) as Hb.
  assert (HV : V < bpow radix2 128) by apply R32_lt_max.
  set (y := R32 v * rnd64 q).
  assert (Hy : Rabs y = V * rnd64 q).
  { unfold y. rewrite Rabs_mult. rewrite (Rabs_pos_eq (rnd64 q)) by (unfold u64r in *; lra).
    reflexivity. }
  assert (HyV : Rabs y <= V).
  { rewrite Hy. rewrite <- (Rmult_1_r V) at 2. apply Rmult_le_compat_l; [lra|].
    assert (q <= 100 / (10009 / 100)) by lra. unfold u64r in *. lra. }
  assert (Hq10 : / 20000000 <= rnd64 q) by (unfold u64r in *; lra).
  assert (Hylo : bpow radix2 (-125) <= Rabs y).
  { rewrite Hy. change (-125)%Z with (-100 + -25)%Z. rewrite bpow_plus.
    apply Rmult_le_compat; try apply bpow_ge_0; auto.
    change (bpow radix2 (-25)) with (/ 33554432). lra. }
  assert (Ey : Rabs (rnd64 y - y) <= u64r * Rabs y).
  { apply rnd64_error. eapply Rle_trans; [|exact Hylo]. apply bpow_le. lia. }
  assert (Hry : (1 - u64r) * Rabs y <= Rabs (rnd64 y) <= (1 + u64r) * Rabs y).
  { pose proof (Rabs_triang_inv (rnd64 y) y). pose proof (Rabs_triang_inv y (rnd64 y)).
    rewrite (Rabs_minus_sym y) in H0. lra. }
  destruct (f64_mul_correct (f64_of_f32 v) (f64_div (f64_of_f32 e) f64_100_1) Hv6 Hdf)
    as [Hmf Hmr].
  { rewrite Hvr, Hdr. fold y. eapply Rle_lt_trans; [exact (proj2 Hry)|].
    apply Rle_lt_trans with (2 * bpow radix2 128); [unfold u64r; lra|].
    change 2 with (bpow radix2 1). rewrite <- bpow_plus. now apply bpow_lt. }
  rewrite Hvr, Hdr in Hmr. fold y in Hmr.
  destruct (f64_abs_correct _ Hmf) as [Haf Har]. rewrite Hmr in Har.
  set (a := Rabs (rnd64 y)) in *.
  assert (Ha0 : bpow radix2 (-126) <= a).
  { change (-126)%Z with (-125 + -1)%Z. rewrite bpow_plus. change (bpow radix2 (-1)) with (/ 2).
    unfold u64r in *. lra. }
  assert (Ea : Rabs (rnd32 a - a) <= u32r * Rabs a).
  { apply rnd32_error. rewrite Rabs_pos_eq; [exact Ha0|]. apply Rabs_pos. }
  assert (Ha1 : 0 <= a) by apply Rabs_pos.
  rewrite (Rabs_pos_eq a) in Ea by lra. apply Rabs_le_inv in Ea.
  (* Bounds in terms of e * V. *)
  assert (HVq : V * rnd64 q <= (1 + u64r) * (V * q) /\ (1 - u64r) * (V * q) <= V * rnd64 q).
  { assert (0 <= V) by lra.
    split.
    - replace ((1 + u64r) * (V * q)) with (V * ((1 + u64r) * q)) by ring.
      apply Rmult_le_compat_l; lra.
    - replace ((1 - u64r) * (V * q)) with (V * ((1 - u64r) * q)) by ring.
      apply Rmult_le_compat_l; lra. }
  assert (HVq2 : V * (R32 e) / (10011 / 100) <= V * q <= V * R32 e / (10009 / 100)).
  { replace (V * R32 e / (10011 / 100)) with (V * (R32 e / (10011 / 100))) by field.
    replace (V * R32 e / (10009 / 100)) with (V * (R32 e / (10009 / 100))) by field.
    split; apply Rmult_le_compat_l; lra. }
  assert (HVe : 0 < V * R32 e) by (apply Rmult_lt_0_compat; lra).
  assert (Hres : V * R32 e / (1002 / 10) <= rnd32 a <= V * R32 e / 100).
  { unfold u32r, u64r in *. lra. }
  destruct (f32_of_f64_correct _ Haf) as [Hff Hfr].
  { rewrite Har. rewrite Rabs_pos_eq by lra. eapply Rle_lt_trans; [exact (proj2 Hres)|].
    apply Rle_lt_trans with V; [|exact HV].
    assert (V * R32 e <= V * 100) by (apply Rmult_le_compat_l; lra). lra. }
  rewrite Har in Hfr. unfold dev. cbn [maximum_allowed_deviation].
  split; [exact Hff|]. rewrite Hfr.
  replace (R32 e / (1002 / 10) * V) with (V * R32 e / (1002 / 10)) by field.
  replace (R32 e / 100 * V) with (V * R32 e / 100) by field. exact Hres.
Qed.

(** ** Stored values *)
Lemma rewrite_within : forall P eb v, good_log2 P -> valid_error_bound eb -> rewritable eb v ->
  eb <> Lossless -> within_bound check_slack eb v (rewrite_least_mantissa_bits P eb v).
Proof.
  intros P eb v HP Hvalid Hre Hll. unfold rewrite_least_mantissa_bits.
  destruct (f32_eq (f32_abs v) f32_zero || f32_is_nan v || f32_is_infinite v) eqn:E.
  { left. apply same_number_refl. }
  apply orb_false_iff in E. destruct E as [E E3]. apply orb_false_iff in E. destruct E as [E1 E2].
  assert (Hv : finite32 v).
  { destruct (finite_or_not v) as [H|[H|H]]; [exact H|congruence|congruence]. }
  assert (Ha : finite32 (f32_abs v) /\ R32 (f32_abs v) = Rabs (R32 v)).
  { unfold finite32, R32, f32_abs, b32_abs. rewrite is_finite_Babs, B2R_Babs. auto. }
  assert (Hv0 : R32 v <> 0).
  { intros H0. assert (Hz : finite32 f32_zero) by reflexivity.
    assert (f32_eq (f32_abs v) f32_zero = true); [|congruence].
    apply (f32_eq_iff _ _ (proj1 Ha) Hz). rewrite (proj2 Ha), H0, Rabs_R0. reflexivity. }
  destruct Hre as [Hre|[Hre|Hre]]; [contradiction|contradiction|].
  set (dev := f32_of_f64 (maximum_allowed_deviation eb (f64_of_f32 v))).
  assert (Hdev : finite32 dev /\
            (forall w, finite32 w -> Rabs (R32 v - R32 w) <= R32 dev ->
               within_bound check_slack eb v w) /\
            (Rabs (R32 v) <= R32 dev \/
             bpow radix2 (-126) <= Rabs (R32 v) /\
             bpow radix2 (get_exponent v - 23) <= R32 dev)).
  { destruct eb as [e|e|]; [| |congruence].
    - destruct Hre as [He Hre]. destruct Hvalid as [Hef He0].
      destruct (deviation_absolute e (f64_of_f32 v) Hef He) as [Hdf [Hd1 Hd2]]. fold dev in Hdf, Hd1, Hd2.
      split; [exact Hdf|]. split.
      + intros w Hw Hle. right. repeat split; auto. unfold check_slack. lra.
      + destruct (Rlt_or_le (Rabs (R32 v)) (bpow radix2 (-126))) as [Hs|Hs].
        * left. change (-125)%Z with (-126 + 1)%Z in He. rewrite bpow_plus in He.
          change (bpow radix2 1) with 2 in He. pose proof (bpow_gt_0 radix2 (-126)). lra.
        * right. split; [exact Hs|].
          destruct (mask_error v 0 Hv Hs ltac:(lia)) as (_ & [Hm _] & _).
          unfold Z.sub. rewrite bpow_plus. change (bpow radix2 (- (23))) with (/ 8388608). lra.
    - destruct Hre as [He Hre]. destruct Hvalid as [Hef [He0 He1]].
      destruct (deviation_relative e v Hef (conj He He1) Hv Hre) as [Hdf [Hd1 Hd2]].
      fold dev in Hdf, Hd1, Hd2.
      split; [exact Hdf|]. split.
      + intros w Hw Hle. right. repeat split; auto.
        apply Rle_trans with (1 := Hle). apply Rle_trans with (1 := Hd2).
        apply Rmult_le_compat_r; [apply Rabs_pos|]. unfold check_slack. lra.
      + right.
        assert (Hs : bpow radix2 (-126) <= Rabs (R32 v)).
        { apply Rle_trans with (2 := Hre). apply bpow_le. lia. }
        split; [exact Hs|].
        destruct (mask_error v 0 Hv Hs ltac:(lia)) as (_ & [Hm _] & _).
        unfold Z.sub. rewrite bpow_plus. change (bpow radix2 (- (23))) with (/ 8388608).
        apply Rle_trans with (2 := Hd1).
        rewrite Rmult_comm. apply Rmult_le_compat; try lra. apply bpow_ge_0. }
  destruct Hdev as (Hdf & Hin & Hcase).
  cbv zeta. fold dev.
  set (pos := i32 (23 - log2_abs_floor P (f32_div dev (f32_pow2 (get_exponent v))))).
  destruct (is_value_within_error_bound eb v (from_bits (rewrite_bits_by_n (to_bits v) pos))) eqn:Ec;
    cbn [negb].
  - apply check_sound; assumption.
  - destruct Hcase as [Hsmall|[Hs Hcase]].
    + destruct (mask_shrinks v (i32 (pos - 1)) Hv) as [Hf Hle]. apply Hin; [exact Hf|]. lra.
    + destruct (rewrite_core P v dev HP Hv Hs Hdf Hcase) as [Hsame|[Hf Hle]].
      * fold pos in Hsame. rewrite Hsame in Ec.
        rewrite same_number_check in Ec by apply same_number_refl. discriminate.
      * apply Hin; assumption.
Qed.

Lemma stored_within : forall P eb last v, good_log2 P -> valid_error_bound eb ->
  rewritable eb v -> within_bound check_slack eb v (stored_value P eb last v).
Proof.
  intros P eb last v HP Hvalid Hre. unfold stored_value.
  assert (Hgen : eb <> Lossless -> within_bound check_slack eb v
            (if is_value_within_error_bound eb v last then last
             else rewrite_least_mantissa_bits P eb v)).
  { intros Hll. destruct (is_value_within_error_bound eb v last) eqn:E.
    - apply check_sound; assumption.
    - apply rewrite_within; assumption. }
  destruct eb as [e|e|]; [apply Hgen; discriminate | apply Hgen; discriminate |].
  left. apply same_number_refl.
Qed.

Lemma stored_values_within : forall P eb values last, good_log2 P -> valid_error_bound eb ->
  Forall (rewritable eb) values ->
  Forall2 (within_bound check_slack eb) values (stored_values P eb last values).
Proof.
  intros P eb values last HP Hvalid H. revert last.
  induction H as [|v values Hv H IH]; intros last; cbn [stored_values]; constructor.
  - now apply stored_within.
  - apply IH.
Qed.

Lemma macaque_v_lossy : forall P eb values,
  good_log2 P -> valid_error_bound eb -> values <> [] -> Forall (rewritable eb) values ->
  (let bytes := fst (fst (macaque_v_model (compress_values P (macaque_v_new eb) values))) in
   exists restored, macaque_v_grid bytes (length values) None = Ok restored
     /\ Forall2 (within_bound check_slack eb) values restored)
  /\ (forall last,
        let bytes := fst (fst (macaque_v_model
                       (compress_values_without_first P (macaque_v_new eb) values last))) in
        exists restored, macaque_v_grid bytes (length values) (Some last) = Ok restored
          /\ Forall2 (within_bound check_slack eb) values restored).
Proof.
  intros P eb values HP Hvalid Hne Hre. cbv zeta. split.
  - destruct values as [|v values]; [congruence|].
    destruct (with_first_round_trip P eb v values) as (_ & E & _). rewrite E.
    eexists. split; [reflexivity|]. constructor.
    + left. apply same_number_refl.
    + apply stored_values_within; auto. now inversion Hre.
  - intros last. destruct (without_first_round_trip P eb last values Hne) as (_ & E & _).
    rewrite E. eexists. split; [reflexivity|]. now apply stored_values_within.
Qed.

(** ** An exact logarithm satisfies the assumption *)
Definition exact_log2_abs_floor (x : f32) : Z :=
  match x with
  | B754_finite _ _ false m e _ =>
      let k := (Z.log2 (Zpos m) + e)%Z in
      if (0 <=? k)%Z then k
      else if (Zpos m =? 2 ^ Z.log2 (Zpos m))%Z then (- k)%Z else (- k - 1)%Z
  | _ => 0%Z
  end.
Definition exact_platform : platform :=
  Platform (fun _ _ => true) (fun _ _ => true) (fun _ _ => true) (fun _ _ => true) exact_log2_abs_floor.

Lemma exact_log2_good : good_log2 exact_platform.
Proof.
  intros x Hx. cbn [log2_abs_floor exact_platform].
  destruct x as [s|s|s pl Hpl|s m e Hme]; try discriminate.
  - change (R32 (B754_zero 24 128 s)) with 0. split; intros [H1 H2]; [|lra].
    pose proof (bpow_gt_0 radix2 (-23)). lra.
  - destruct s.
    { assert (Hneg : R32 (B754_finite 24 128 true m e Hme) < 0) by (apply F2R_lt_0; reflexivity).
      split; intros [H1 H2]; [pose proof (bpow_gt_0 radix2 (-23)); lra | lra]. }
    set (x := B754_finite 24 128 false m e Hme).
    assert (Hr : R32 x = IZR (Zpos m) * bpow radix2 e) by reflexivity.
    set (k := (Z.log2 (Zpos m) + e)%Z).
    pose proof (Z.log2_spec (Zpos m) ltac:(lia)) as [Hl1 Hl2].
    pose proof (Z.log2_nonneg (Zpos m)) as Hl0.
    assert (Hk : bpow radix2 k <= R32 x < bpow radix2 (k + 1)).
    { rewrite Hr. unfold k. rewrite bpow_plus.
      replace (Z.log2 (Z.pos m) + e + 1)%Z with (Z.succ (Z.log2 (Zpos m)) + e)%Z by lia.
      rewrite bpow_plus. pose proof (bpow_gt_0 radix2 e).
      rewrite <- (IZR_Zpower radix2 (Z.log2 (Zpos m))) by lia.
      rewrite <- (IZR_Zpower radix2 (Z.succ (Z.log2 (Zpos m)))) by lia.
      split.
      - apply Rmult_le_compat_r; [lra|]. apply IZR_le. exact Hl1.
      - apply Rmult_lt_compat_r; [lra|]. apply IZR_lt. exact Hl2. }
    assert (Hpow : (Zpos m =? 2 ^ Z.log2 (Zpos m))%Z = true -> R32 x = bpow radix2 k).
    { intros Hp. apply Z.eqb_eq in Hp. rewrite Hr. unfold k. rewrite bpow_plus.
      rewrite <- (IZR_Zpower radix2 (Z.log2 (Zpos m))) by lia. rewrite Hp at 1. reflexivity. }
    unfold exact_log2_abs_floor, x. fold x. cbv zeta. fold k. split.
    + intros [H1 H2].
      assert (Hk0 : (k < 0)%Z).
      { apply (lt_bpow radix2). change (bpow radix2 0) with 1. lra. }
      assert (Hk1 : (-23 < k + 1)%Z).
      { apply (lt_bpow radix2). lra. }
      destruct (Z.leb_spec 0 k); [lia|].
      destruct (Zpos m =? _)%Z.
      * split; [lia|]. specialize (Hpow eq_refl). rewrite Hpow. apply bpow_le. lia.
      * split; [lia|]. replace (- (- k - 1 + 1))%Z with k by lia. lra.
    + intros [H1 H2].
      assert (k < 1)%Z by (apply (lt_bpow radix2); change (bpow radix2 1) with 2; lra).
      assert (0 < k + 1)%Z by (apply (lt_bpow radix2); change (bpow radix2 0) with 1; lra).
      destruct (Z.leb_spec 0 k); lia.
Qed.

(** ** Small absolute bounds *)
Lemma macaque_v_small_bound : exists P eb last v,
  good_log2 P /\ valid_error_bound eb /\ finite32 v
  /\ ~ within_bound 1000000 eb v (stored_value P eb last v).
Proof.
  exists exact_platform, (Absolute (from_bits 925353388)), f32_zero, (from_bits 1148846080).
  assert (Hb : forall z s E M, z = bits_from s E M -> (0 <= M < 2 ^ 23)%Z -> (0 <= E < 255)%Z ->
            finite32 (from_bits z) /\ R32 (from_bits z) = signed s (magnitude E M)).
  { intros z s E M -> HM HE. now apply from_bits_R. }
  destruct (Hb 925353388%Z false 110%Z 2606508%Z eq_refl ltac:(lia) ltac:(lia)) as [He1 He2].
  destruct (Hb 1148846080%Z false 136%Z 7995392%Z eq_refl ltac:(lia) ltac:(lia)) as [Hv1 Hv2].
  assert (He3 : 0 < R32 (from_bits 925353388) < / 50000).
  { rewrite He2. unfold signed, magnitude. cbn [Z.eqb]. unfold F2R. cbn [Fnum Fexp].
    change (2606508 + 2 ^ 23)%Z with 10995116%Z. change (bpow radix2 (110 - 150)) with (/ 1099511627776). lra. }
  assert (Hv3 : R32 (from_bits 1148846080) = 1000).
  { rewrite Hv2. unfold signed, magnitude. cbn [Z.eqb]. unfold F2R. cbn [Fnum Fexp].
    change (7995392 + 2 ^ 23)%Z with 16384000%Z. change (bpow radix2 (136 - 150)) with (/ 16384). lra. }
  split; [exact exact_log2_good|]. split; [split; [exact He1 | lra]|]. split; [exact Hv1|].
  assert (Hs : stored_value exact_platform (Absolute (from_bits 925353388)) f32_zero
                 (from_bits 1148846080) = from_bits 1073741824).
  { rewrite <- (from_to_bits (stored_value _ _ _ _)). apply f_equal. vm_compute. reflexivity. }
  rewrite Hs.
  destruct (Hb 1073741824%Z false 128%Z 0%Z eq_refl ltac:(lia) ltac:(lia)) as [Hs1 Hs2].
  assert (Hs3 : R32 (from_bits 1073741824) = 2).
  { rewrite Hs2. unfold signed, magnitude. cbn [Z.eqb]. unfold F2R. cbn [Fnum Fexp].
    change (0 + 2 ^ 23)%Z with 8388608%Z. change (bpow radix2 (128 - 150)) with (/ 4194304). lra. }
  intros [[(_ & _ & H)|[[_ H]|[H _]]]|(_ & _ & H)].
  - lra.
  - now apply infinite_not_finite in H.
  - now apply nan_not_finite in H.
  - rewrite Hv3, Hs3 in H. rewrite Rabs_pos_eq in H by lra. lra.
Qed.
