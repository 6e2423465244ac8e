(** The limits of Swing with f64 arithmetic: the deviation and the slope that is stored. *)
From Coq Require Import ZArith Reals Psatz Lra Bool Lia List.
From Flocq Require Import Core IEEE754.BinarySingleNaN IEEE754.Binary IEEE754.Bits.
From Verif Require Import Model.Base Model.Float Model.ErrorBound Model.Swing
  Spec.ErrorBoundSpec Spec.SwingSpec
  Proofs.FloatProofs Proofs.ErrorBoundProofs Proofs.MacaqueVLossyProofs Proofs.SwingFloatProofs
  Proofs.SwingArithmetic Proofs.SwingRounding.
Import ListNotations.
Open Scope R_scope.

(** A number that is small compared to every f32 and large compared to [tiny]. *)
Definition mu : R := bpow radix2 (-500).
Lemma mu_pos : 0 < mu.
Proof. apply bpow_gt_0. Qed.
Lemma tiny_mu : tiny * 1267650600228229401496703205376 <= mu.
Proof.
  change 1267650600228229401496703205376 with (bpow radix2 100). unfold tiny, mu.
  rewrite <- bpow_plus. apply bpow_le. lia.
Qed.

Lemma max_tiny_mu : forall x, Rabs x < bpow radix2 128 -> Rabs x * tiny <= mu / 1024.
Proof.
  intros x Hx. apply Rle_trans with (bpow radix2 128 * tiny).
  - apply Rmult_le_compat_r; [left; apply tiny_pos|lra].
  - unfold tiny, mu. rewrite <- bpow_plus. change (bpow radix2 (-500) / 1024)
      with (bpow radix2 (-500) * bpow radix2 (-10)). rewrite <- bpow_plus. apply bpow_le. lia.
Qed.

Lemma deviation_near : forall eb v, valid_error_bound eb -> finite32 v ->
  let d := maximum_allowed_deviation eb (f64_of_f32 v) in
  finite64 d /\ 0 <= R64 d <= (1 + 8 * u) * exact_deviation eb (R32 v) + mu / 100.
Proof.
  intros [e|e|] v Heb Hv; cbn [maximum_allowed_deviation exact_deviation valid_error_bound] in *;
    pose proof u_small as Hu; pose proof tiny_pos as Htp; pose proof tiny_mu as Htm;
    pose proof mu_pos as Hmp.
  - destruct Heb as [Hef He]. destruct (f64_of_f32_finite e Hef) as [He6 Her].
    destruct R64_0_99 as [Hcf Hcr].
    pose proof (R32_lt_max e) as Hmax. rewrite Rabs_pos_eq in Hmax by lra.
    assert (Hle : 0 <= R32 e * R64 f64_0_99 <= R32 e * (99 / 100) * (1 + 2 * u)).
    { rewrite Hcr. split; [apply Rmult_le_pos; lra|]. rewrite Rmult_assoc.
      apply Rmult_le_compat_l; [lra|]. unfold u64r. lra. }
    assert (Hlarge : R32 e * (99 / 100) * (1 + 2 * u) <= large).
    { apply Rle_trans with (bpow radix2 128 * 2).
      - rewrite Rmult_assoc. apply Rmult_le_compat; lra.
      - change 2 with (bpow radix2 1). rewrite <- bpow_plus. apply bpow_le. lia. }
    destruct (mul_near (f64_of_f32 e) f64_0_99 He6 Hcf) as [Hmf Hmr].
    { rewrite Her, Rabs_pos_eq; lra. }
    rewrite Her in Hmr. split; [exact Hmf|].
    assert (Hpos : 0 <= R64 (f64_mul (f64_of_f32 e) f64_0_99)).
    { destruct (f64_mul_correct (f64_of_f32 e) f64_0_99 He6 Hcf) as [_ ->].
      - apply rnd64_large. rewrite Her, Rabs_pos_eq; lra.
      - rewrite <- rnd64_0. apply rnd64_le. rewrite Her. lra. }
    split; [exact Hpos|]. rewrite (Rabs_pos_eq (R32 e * _)) in Hmr by lra.
    apply Rabs_le_inv in Hmr.
    assert (E1 : u * (R32 e * R64 f64_0_99) <= u * (R32 e * (99 / 100) * (1 + 2 * u)))
      by (apply Rmult_le_compat_l; lra).
    assert (E2 : u * (u * R32 e) <= / 1000000 * (u * R32 e)).
    { apply Rmult_le_compat_r; [apply Rmult_le_pos; lra|lra]. }
    assert (E3 : 0 <= u * R32 e) by (apply Rmult_le_pos; lra).
    lra.
  - destruct Heb as [Hef He]. destruct (f64_of_f32_finite e Hef) as [He6 Her].
    destruct (f64_of_f32_finite v Hv) as [Hv6 Hvr]. destruct R64_100_1 as [Hcf Hcr].
    set (c := R64 f64_100_1) in *.
    assert (Hc : 100 < c < 101 /\ 1001 / 10 * (1 - 2 * u) <= c) by (rewrite Hcr; unfold u64r; lra).
    set (k := R32 e / (1001 / 10)).
    assert (Hk : 0 < k <= 1) by (unfold k; lra).
    assert (Hq : 0 <= R32 e / c <= k * (1 + 3 * u)).
    { split.
      - apply Rmult_le_reg_r with c; [lra|]. unfold Rdiv. rewrite Rmult_assoc, Rinv_l by lra. lra.
      - apply Rmult_le_reg_r with c; [lra|]. unfold Rdiv at 1. rewrite Rmult_assoc, Rinv_l by lra.
        apply Rle_trans with (k * (1 + 3 * u) * (1001 / 10 * (1 - 2 * u))).
        + unfold k. replace (R32 e / (1001 / 10) * (1 + 3 * u) * (1001 / 10 * (1 - 2 * u)))
            with (R32 e * (1 + u * (1 - 6 * u))) by field.
          apply Rmult_le_compat_l; [lra|].
          assert (0 <= u * (1 - 6 * u)) by (apply Rmult_le_pos; lra). lra.
        + apply Rmult_le_compat_l; [|lra]. apply Rmult_le_pos; lra. }
    pose proof large_pos as Hl1.
    assert (Hl2 : 1000 <= large).
    { apply Rle_trans with (bpow radix2 10); [change (bpow radix2 10) with 1024; lra|].
      apply bpow_le. lia. }
    assert (Hku : k * (1 + 3 * u) <= 2).
    { apply Rle_trans with (1 * (1 + 3 * u)); [apply Rmult_le_compat_r|]; lra. }
    destruct (div_near (f64_of_f32 e) f64_100_1 He6) as [Hdf Hdr]; fold c.
    { lra. }
    { rewrite Her, Rabs_pos_eq; lra. }
    rewrite Her in Hdr. fold c in Hdr. rewrite (Rabs_pos_eq (R32 e / c)) in Hdr by lra.
    set (q := f64_div (f64_of_f32 e) f64_100_1) in *. apply Rabs_le_inv in Hdr.
    assert (Hts : tiny <= / 1000000).
    { pose proof tiny_small. lra. }
    assert (Huk : u * (R32 e / c) <= u * (k * (1 + 3 * u))) by (apply Rmult_le_compat_l; lra).
    assert (Huk0 : 0 <= u * k) by (apply Rmult_le_pos; lra).
    assert (Huku : u * (u * k) <= / 1000000 * (u * k)) by (apply Rmult_le_compat_r; lra).
    assert (Hq2 : Rabs (R64 q) <= k * (1 + 5 * u) + tiny).
    { apply Rabs_le.
      assert (u * (R32 e / c) <= 1 * (R32 e / c)) by (apply Rmult_le_compat_r; lra).
      lra. }
    pose proof (R32_lt_max v) as Hmax. pose proof (max_tiny_mu _ Hmax) as Hvt.
    set (V := Rabs (R32 v)) in *. assert (HV : 0 <= V) by apply Rabs_pos.
    assert (Hy : Rabs (R32 v * R64 q) <= V * k * (1 + 5 * u) + V * tiny).
    { rewrite Rabs_mult. fold V. rewrite Rmult_assoc, <- Rmult_plus_distr_l.
      apply Rmult_le_compat_l; lra. }
    assert (HVk : V * k <= V * 1) by (apply Rmult_le_compat_l; lra).
    assert (HVk0 : 0 <= V * k) by (apply Rmult_le_pos; lra).
    assert (HuVk : 0 <= u * (V * k)) by (apply Rmult_le_pos; lra).
    assert (HuVk1 : u * (V * k) <= 1 * (V * k)) by (apply Rmult_le_compat_r; lra).
    assert (HVl : V * 100 <= large).
    { apply Rle_trans with (bpow radix2 128 * bpow radix2 7).
      - apply Rmult_le_compat; try lra. change (bpow radix2 7) with 128. lra.
      - rewrite <- bpow_plus. apply bpow_le. lia. }
    assert (Hmu1 : mu <= 1).
    { change 1 with (bpow radix2 0). apply bpow_le. lia. }
    destruct (mul_near (f64_of_f32 v) q Hv6 Hdf) as [Hmf Hmr].
    { rewrite Hvr. lra. }
    rewrite Hvr in Hmr. destruct (f64_abs_correct _ Hmf) as [Haf Har]. split; [exact Haf|].
    rewrite Har. split; [apply Rabs_pos|].
    replace (R64 (f64_mul (f64_of_f32 v) q))
      with ((R64 (f64_mul (f64_of_f32 v) q) - R32 v * R64 q) + R32 v * R64 q) by ring.
    eapply Rle_trans; [apply Rabs_triang|].
    assert (Huy : u * Rabs (R32 v * R64 q) <= u * (V * k * (1 + 5 * u) + V * tiny))
      by (apply Rmult_le_compat_l; lra).
    assert (Huu : u * (u * (V * k)) <= / 1000000 * (u * (V * k))) by (apply Rmult_le_compat_r; lra).
    assert (HVt0 : 0 <= V * tiny) by (apply Rmult_le_pos; lra).
    assert (Huvt : u * (V * tiny) <= 1 * (V * tiny)) by (apply Rmult_le_compat_r; lra).
    change (R32 e / (1001 / 10)) with k. rewrite (Rabs_mult (R32 v) k), (Rabs_pos_eq k) by lra. fold V. lra.
  - split; [reflexivity|]. change (R64 f64_zero) with 0. lra.
Qed.

(** The slope that is stored is between the two limits if they did not cross. *)
Lemma clamped : forall Pl lo p hi, finite64 lo -> finite64 hi ->
  let r := f64_max Pl lo (f64_min Pl p hi) in
  finite64 r /\ R64 lo <= R64 r <= Rmax (R64 lo) (R64 hi).
Proof.
  intros Pl lo p hi Hlo Hhi r.
  assert (Hnn : forall x, finite64 x -> f64_is_nan x = false).
  { intros [s|s|s pl H|s m e H] Hx; try discriminate; reflexivity. }
  (* The maximum with a finite number that is at most the upper limit. *)
  assert (Hmax : forall x, finite64 x -> R64 x <= R64 hi ->
    finite64 (f64_max Pl lo x) /\ R64 lo <= R64 (f64_max Pl lo x) <= Rmax (R64 lo) (R64 hi)).
  { intros x Hx Hle. unfold f64_max. rewrite (Hnn lo Hlo), (Hnn x Hx). unfold b64_compare.
    rewrite (Bcompare_correct 53 1024 lo x Hlo Hx). fold (R64 lo) (R64 x).
    pose proof (Rmax_l (R64 lo) (R64 hi)). pose proof (Rmax_r (R64 lo) (R64 hi)).
    destruct (Rcompare_spec (R64 lo) (R64 x)) as [H1|H1|H1].
    - split; [exact Hx|lra].
    - destruct (max64_takes_first Pl lo x); split; auto; lra.
    - split; [exact Hlo|lra]. }
  unfold r. unfold f64_min. destruct (f64_is_nan p) eqn:Ep; [apply Hmax; auto; lra|].
  rewrite (Hnn hi Hhi).
  destruct (is_finite 53 1024 p) eqn:Hp.
  - unfold b64_compare. rewrite (Bcompare_correct 53 1024 p hi Hp Hhi). fold (R64 p) (R64 hi).
    destruct (Rcompare_spec (R64 p) (R64 hi)) as [H1|H1|H1].
    + apply Hmax; [exact Hp|lra].
    + destruct (min64_takes_first Pl p hi); apply Hmax; auto; lra.
    + apply Hmax; auto; lra.
  - destruct p as [s|s|s pl H|s m e H]; try discriminate. destruct s.
    + (* Minus infinity. *)
      assert (E : b64_compare (B754_infinity 53 1024 true) hi = Some Lt).
      { destruct hi as [s|s|s pl H|s m e H]; try discriminate; reflexivity. }
      rewrite E. unfold f64_max. rewrite (Hnn lo Hlo). cbn [f64_is_nan is_nan].
      assert (E2 : b64_compare lo (B754_infinity 53 1024 true) = Some Gt).
      { destruct lo as [s|s|s pl H|s m e H]; try discriminate; reflexivity. }
      change (f64_is_nan (B754_infinity 53 1024 true)) with false.
      rewrite E2. split; [exact Hlo|]. pose proof (Rmax_l (R64 lo) (R64 hi)). lra.
    + assert (E : b64_compare (B754_infinity 53 1024 false) hi = Some Gt).
      { destruct hi as [s|s|s pl H|s m e H]; try discriminate; reflexivity. }
      rewrite E. apply Hmax; auto; lra.
Qed.
