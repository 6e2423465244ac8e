(** How far the f64 operations of swing.rs are from exact arithmetic. *)
From Coq Require Import ZArith Reals Psatz Lra Bool Lia.
From Flocq Require Import Core IEEE754.BinarySingleNaN IEEE754.Binary IEEE754.Bits
  Relative Plus_error.
From Verif Require Import Model.Base Model.Float Model.ErrorBound Spec.ErrorBoundSpec
  Proofs.FloatProofs Proofs.SwingFloatProofs.
Open Scope R_scope.

(** The largest error of a rounding to a number close to zero. *)
Definition tiny : R := bpow radix2 (-1075).
Lemma tiny_pos : 0 < tiny.
Proof. apply bpow_gt_0. Qed.

Lemma rnd64_any : forall x, Rabs (rnd64 x - x) <= u64r * Rabs x + tiny.
Proof.
  intros x.
  destruct (error_N_FLT radix2 (-1074) 53 eq_refl (fun n => negb (Z.even n)) x)
    as (eps & eta & He & Ht & _ & Hr).
  fold (rnd64 x) in Hr. rewrite Hr.
  replace (x * (1 + eps) + eta - x) with (eps * x + eta) by ring.
  eapply Rle_trans; [apply Rabs_triang|]. apply Rplus_le_compat.
  - rewrite Rabs_mult. apply Rmult_le_compat_r; [apply Rabs_pos|].
    eapply Rle_trans; [exact He|]. unfold u_ro, u64r.
    change (bpow radix2 (- (53) + 1)) with (/ 4503599627370496). lra.
  - eapply Rle_trans; [exact Ht|]. unfold tiny. change (-1074)%Z with (1 + -1075)%Z.
    rewrite bpow_plus. change (bpow radix2 1) with 2. lra.
Qed.

Lemma rnd32_any : forall x, Rabs (rnd32 x - x) <= u32r * Rabs x + bpow radix2 (-150).
Proof.
  intros x.
  destruct (error_N_FLT radix2 (-149) 24 eq_refl (fun n => negb (Z.even n)) x)
    as (eps & eta & He & Ht & _ & Hr).
  fold (rnd32 x) in Hr. rewrite Hr.
  replace (x * (1 + eps) + eta - x) with (eps * x + eta) by ring.
  eapply Rle_trans; [apply Rabs_triang|]. apply Rplus_le_compat.
  - rewrite Rabs_mult. apply Rmult_le_compat_r; [apply Rabs_pos|].
    eapply Rle_trans; [exact He|]. unfold u_ro, u32r.
    change (bpow radix2 (- (24) + 1)) with (/ 8388608). lra.
  - eapply Rle_trans; [exact Ht|]. change (-149)%Z with (1 + -150)%Z.
    rewrite bpow_plus. change (bpow radix2 1) with 2. lra.
Qed.

Lemma rnd64_sum : forall x y, generic_format radix2 fexp64 x -> generic_format radix2 fexp64 y ->
  Rabs (rnd64 (x + y) - (x + y)) <= u64r * Rabs (x + y).
Proof.
  intros x y Hx Hy.
  destruct (FLT_plus_error_N_ex radix2 (-1074) 53 (fun n => negb (Z.even n)) x y Hx Hy)
    as (eps & He & Hr).
  fold (rnd64 (x + y)) in Hr. rewrite Hr.
  replace ((x + y) * (1 + eps) - (x + y)) with (eps * (x + y)) by ring.
  rewrite Rabs_mult. apply Rmult_le_compat_r; [apply Rabs_pos|].
  eapply Rle_trans; [exact He|]. change (u_ro radix2 53) with (/ 2 * bpow radix2 (-53 + 1)).
  change (bpow radix2 (-53 + 1)) with (/ 4503599627370496). unfold u64r. lra.
Qed.

(** No operation overflows as long as the results are less than this. *)
Definition large : R := bpow radix2 1000.
Lemma large_pos : 1 < large.
Proof. change 1 with (bpow radix2 0). now apply bpow_lt. Qed.

Lemma rnd64_large : forall x, Rabs x <= large -> Rabs (rnd64 x) < bpow radix2 1024.
Proof.
  intros x Hx. apply Rle_lt_trans with large; [|now apply bpow_lt].
  apply abs_round_le_generic; try typeclasses eauto; [|exact Hx].
  apply generic_format_bpow. unfold FLT_exp. lia.
Qed.

Lemma add_near : forall x y, finite64 x -> finite64 y -> Rabs (R64 x + R64 y) <= large ->
  finite64 (f64_add x y)
  /\ Rabs (R64 (f64_add x y) - (R64 x + R64 y)) <= u64r * Rabs (R64 x + R64 y).
Proof.
  intros x y Hx Hy H.
  generalize (Bplus_correct 53 1024 eq_refl eq_refl binop_nan_pl64 mode_NE x y Hx Hy).
  fold (R64 x) (R64 y).
  change (Bplus 53 1024 eq_refl eq_refl binop_nan_pl64 mode_NE x y) with (f64_add x y).
  change (round radix2 (SpecFloat.fexp 53 1024) (round_mode mode_NE) (R64 x + R64 y))
    with (rnd64 (R64 x + R64 y)).
  rewrite Rlt_bool_true by (now apply rnd64_large). intros (Hr & Hf & _). split; [exact Hf|].
  change (B2R 53 1024 (f64_add x y)) with (R64 (f64_add x y)) in Hr. rewrite Hr.
  apply rnd64_sum; apply format64.
Qed.

Lemma sub_near : forall x y, finite64 x -> finite64 y -> Rabs (R64 x - R64 y) <= large ->
  finite64 (f64_sub x y)
  /\ Rabs (R64 (f64_sub x y) - (R64 x - R64 y)) <= u64r * Rabs (R64 x - R64 y).
Proof.
  intros x y Hx Hy H.
  generalize (Bminus_correct 53 1024 eq_refl eq_refl binop_nan_pl64 mode_NE x y Hx Hy).
  fold (R64 x) (R64 y).
  change (Bminus 53 1024 eq_refl eq_refl binop_nan_pl64 mode_NE x y) with (f64_sub x y).
  change (round radix2 (SpecFloat.fexp 53 1024) (round_mode mode_NE) (R64 x - R64 y))
    with (rnd64 (R64 x - R64 y)).
  rewrite Rlt_bool_true by (now apply rnd64_large). intros (Hr & Hf & _). split; [exact Hf|].
  change (B2R 53 1024 (f64_sub x y)) with (R64 (f64_sub x y)) in Hr. rewrite Hr.
  apply rnd64_sum; [|apply generic_format_opp]; apply format64.
Qed.

Lemma mul_near : forall x y, finite64 x -> finite64 y -> Rabs (R64 x * R64 y) <= large ->
  finite64 (f64_mul x y)
  /\ Rabs (R64 (f64_mul x y) - R64 x * R64 y) <= u64r * Rabs (R64 x * R64 y) + tiny.
Proof.
  intros x y Hx Hy H.
  destruct (f64_mul_correct x y Hx Hy (rnd64_large _ H)) as [Hf Hr].
  split; [exact Hf|]. rewrite Hr. apply rnd64_any.
Qed.

Lemma div_near : forall x y, finite64 x -> R64 y <> 0 -> Rabs (R64 x / R64 y) <= large ->
  finite64 (f64_div x y)
  /\ Rabs (R64 (f64_div x y) - R64 x / R64 y) <= u64r * Rabs (R64 x / R64 y) + tiny.
Proof.
  intros x y Hx Hy H.
  destruct (f64_div_correct x y Hx Hy (rnd64_large _ H)) as [Hf Hr].
  split; [exact Hf|]. rewrite Hr. apply rnd64_any.
Qed.

(** Integers that are at most 2^53 are represented exactly. *)
Lemma of_Z_exact : forall z, (Z.abs z <= 2 ^ 53)%Z ->
  finite64 (f64_of_Z z) /\ R64 (f64_of_Z z) = IZR z.
Proof.
  intros z Hz. destruct (f64_of_Z_correct z ltac:(lia)) as [Hf Hr]. split; [exact Hf|].
  rewrite Hr. unfold rnd64. apply round_generic; [typeclasses eauto|].
  destruct (Z.eq_dec (Z.abs z) (2 ^ 53)) as [E|E].
  - assert (E2 : (z = 2 ^ 53 \/ z = - 2 ^ 53)%Z) by lia. destruct E2 as [->| ->].
    + change (IZR (2 ^ 53)) with (bpow radix2 53). apply generic_format_bpow. unfold FLT_exp. lia.
    + change (IZR (- 2 ^ 53)) with (- bpow radix2 53). apply generic_format_opp.
      apply generic_format_bpow. unfold FLT_exp. lia.
  - replace (IZR z) with (F2R (Float radix2 z 0))
      by (unfold F2R; cbn [Fnum Fexp bpow]; ring).
    apply generic_format_FLT. exists (Float radix2 z 0); [reflexivity| |].
    + cbn [Fnum]. change (radix2 ^ 53)%Z with (2 ^ 53)%Z. lia.
    + cbn [Fexp]. lia.
Qed.

(** A rounded number that is not less than a limit was almost not less than it. *)
Lemma rounded_ge : forall x r y M, Rabs (r - x) <= u64r * Rabs x -> y <= r -> Rabs y <= M ->
  y - 2 * u64r * M <= x.
Proof.
  intros x r y M Hr Hy HM. assert (Hu : 0 < u64r < / 1000) by (unfold u64r; lra).
  pose proof (Rabs_pos y) as Hy0.
  assert (HM0 : 0 <= u64r * M) by (apply Rmult_le_pos; lra).
  apply Rabs_le_inv in Hr.
  destruct (Rle_or_lt y x) as [H|H]; [lra|].
  destruct (Rle_or_lt 0 x) as [H0|H0].
  - rewrite Rabs_pos_eq in Hr by lra. rewrite Rabs_pos_eq in HM by lra.
    assert (u64r * x <= u64r * M) by (apply Rmult_le_compat_l; lra). lra.
  - rewrite (Rabs_left x) in Hr by lra.
    assert (Hx : y <= x * (1 - u64r)) by lra.
    assert (Hxu : x * (1 - u64r) < 0).
    { replace (x * (1 - u64r)) with (- ((- x) * (1 - u64r))) by ring.
      assert (0 < - x * (1 - u64r)) by (apply Rmult_lt_0_compat; lra). lra. }
    rewrite Rabs_left in HM by lra.
    (* -x <= M + 2 u M *)
    assert (Hb : - x <= 2 * M).
    { assert ((- x) * / 2 <= - x * (1 - u64r)) by (apply Rmult_le_compat_l; lra). lra. }
    assert (u64r * - x <= u64r * (2 * M)) by (apply Rmult_le_compat_l; lra). lra.
Qed.
Lemma rounded_le : forall x r y M, Rabs (r - x) <= u64r * Rabs x -> r <= y -> Rabs y <= M ->
  x <= y + 2 * u64r * M.
Proof.
  intros x r y M Hr Hy HM.
  assert (H : - y - 2 * u64r * M <= - x); [|lra].
  apply (rounded_ge (- x) (- r)); [|lra|now rewrite Rabs_Ropp].
  rewrite Rabs_Ropp. replace (- r - - x) with (- (r - x)) by ring. now rewrite Rabs_Ropp.
Qed.

(** Comparisons of finite numbers. *)
Lemma f64_lt_false : forall x y, finite64 x -> finite64 y -> f64_lt x y = false -> R64 y <= R64 x.
Proof.
  intros x y Hx Hy H. apply Rnot_lt_le. intros Hl.
  apply (f64_lt_iff x y Hx Hy) in Hl. congruence.
Qed.
