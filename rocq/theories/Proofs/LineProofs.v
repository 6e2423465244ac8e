(** Values and sums of linear functions that are stored in segments. *)
From Coq Require Import ZArith Reals List Bool Lia Lra Sorting.Sorted.
From Flocq Require Import Core Relative Plus_error IEEE754.BinarySingleNaN IEEE754.Binary IEEE754.Bits.
From Verif Require Import Model.Base Model.Float Model.ErrorBound Model.Swing
  Spec.ErrorBoundSpec Spec.SwingSpec Proofs.FloatProofs Proofs.ErrorBoundProofs
  Proofs.SwingArithmetic Proofs.SwingRounding Proofs.SwingLimits Proofs.SwingStored
  Proofs.SwingBound.
Import ListNotations.
Open Scope R_scope.
Notation u := u64r.

(** The exact line through two data points. *)
Definition on_line (t0 te : Z) (first last : R) (t : Z) : R :=
  first + (last - first) * (IZR (t - t0) / IZR (te - t0)).

Lemma on_line_between : forall t0 te first last t, (t0 <= t <= te)%Z -> (t0 < te)%Z ->
  Rmin first last <= on_line t0 te first last t <= Rmax first last.
Proof.
  intros t0 te first last t Ht H. unfold on_line.
  assert (HD : 1 <= IZR (te - t0)) by (apply IZR_le; lia).
  assert (Hx : 0 <= IZR (t - t0) <= IZR (te - t0)) by (split; apply IZR_le; lia).
  set (q := IZR (t - t0) / IZR (te - t0)).
  assert (Hq : 0 <= q <= 1).
  { split.
    - apply Rmult_le_pos; [lra|]. left. apply Rinv_0_lt_compat. lra.
    - unfold q. apply Rmult_le_reg_r with (IZR (te - t0)); [lra|].
      unfold Rdiv. rewrite Rmult_assoc, Rinv_l by lra. lra. }
  unfold Rmin, Rmax. destruct (Rle_dec first last) as [L|L].
  - assert (0 <= (last - first) * q <= (last - first) * 1).
    { split; [apply Rmult_le_pos; lra|apply Rmult_le_compat_l; lra]. }
    lra.
  - assert (0 <= (first - last) * q <= (first - last) * 1).
    { split; [apply Rmult_le_pos; lra|apply Rmult_le_compat_l; lra]. }
    lra.
Qed.

Section Line.
Context (Pl : platform) (t0 te T : Z) (first last : f32) (M tau : R).
Notation N := (f64_num Pl).
Hypothesis HT : (T <= 2 ^ 52)%Z.
Hypothesis H0 : (Z.abs t0 <= T)%Z.
Hypothesis He : (Z.abs te <= T)%Z.
Hypothesis Hlt : (t0 < te)%Z.
Hypothesis Hf : finite32 first.
Hypothesis Hl : finite32 last.
Hypothesis HfM : Rabs (R32 first) <= M.
Hypothesis HlM : Rabs (R32 last) <= M.
Hypothesis HM : M <= 2 ^ 120.
Hypothesis Htau : tau = IZR T / IZR (te - t0).
Hypothesis Htau44 : tau <= 2 ^ 44.

Definition value_error : R := u * M * (7 * tau + 9) + 10 * slop.

Lemma M_pos : 0 <= M.
Proof. clear - HfM. pose proof (Rabs_pos (R32 first)). lra. Qed.
Lemma tau_pos : 0 <= tau.
Proof.
  clear - Htau H0 Hlt. rewrite Htau. apply Rmult_le_pos; [apply IZR_le; lia|].
  left. apply Rinv_0_lt_compat. apply IZR_lt. lia.
Qed.

Lemma line_value_near : forall t, (t0 <= t <= te)%Z ->
  let a := swing_value N t0 te (f64_of_f32 first) (f64_of_f32 last) t in
  finite64 a /\ Rabs (R64 a - on_line t0 te (R32 first) (R32 last) t) <= value_error.
Proof.
  intros t Ht a. unfold a, swing_value. clear a.
  pose proof u_small as Hu. pose proof tiny_pos as Htp. pose proof tiny_mu as Htm.
  pose proof mu_pos as Hmp. pose proof M_pos as HM0. pose proof tau_pos as Ht0.
  destruct slop_bounds as (Hsl0 & Hsl1 & _ & _).
  destruct powers as (_ & E44 & _ & _ & E120). rewrite E44 in Htau44. rewrite E120 in HM.
  pose proof large_room as [Hlarge Hb200].
  assert (Hb : bpow radix2 120 <= bpow radix2 200) by (apply bpow_le; lia).
  assert (HM200 : M <= bpow radix2 200) by lra.
  destruct (f64_of_f32_finite first Hf) as [Hf6 Hf6r].
  destruct (f64_of_f32_finite last Hl) as [Hl6 Hl6r].
  destruct (fitted Pl t0 T M H0 HT HM0 HM200 (f64_of_f32 first) (f64_of_f32 last) te Hf6 Hl6)
    as [Hline Hfit]; rewrite ?Hf6r, ?Hl6r; auto.
  rewrite Hf6r, Hl6r in *.
  pose proof (duration_ge t0 T H0 HT te Hlt He) as HD. pose proof (T_bounds t0 T H0 HT) as HTb.
  unfold on_line. set (D := IZR (te - t0)) in *. set (x := IZR (t - t0)) in *.
  assert (Hx : 0 <= x <= D) by (split; apply IZR_le; lia).
  set (line := compute_slope_and_intercept N t0 (f64_of_f32 first) te (f64_of_f32 last)) in *.
  destruct Hline as (Hsf & Hbf & HsD & Hval).
  destruct (slope_small t0 T M H0 HT HM0 HM200 D _ ltac:(lra) HsD) as (Hs1 & _).
  destruct (Hval t ltac:(lia)) as [Hvf Hv]. clear Hval. fold x in Hv.
  set (s := R64 (fst line)) in *. set (f := R32 first) in *. set (l := R32 last) in *.
  assert (HDt : D * tiny <= slop / 1000).
  { assert (D * tiny <= 9007199254740992 * tiny) by (apply Rmult_le_compat_r; lra). lra. }
  set (W := u * M) in *. assert (HW0 : 0 <= W) by (apply Rmult_le_pos; lra).
  assert (HW : W <= / 1000000 * M) by (apply Rmult_le_compat_r; lra).
  assert (HWt0 : 0 <= W * tau) by (apply Rmult_le_pos; lra).
  assert (HWt : W * tau <= M / 100).
  { replace (W * tau) with (M * (u * tau)) by (unfold W; ring). unfold Rdiv.
    apply Rmult_le_compat_l; [lra|]. unfold u64r. lra. }
  assert (Hsx : Rabs (f + s * x - (f + (l - f) * (x / D))) <= 5 * W + slop / 1000).
  { replace (f + s * x - (f + (l - f) * (x / D))) with ((s * D - (l - f)) * (x / D)) by (field; lra).
    assert (Hr0 : 0 <= x / D) by (apply Rmult_le_pos; [lra|left; apply Rinv_0_lt_compat; lra]).
    assert (Hr : x / D <= 1).
    { apply Rmult_le_reg_r with D; [lra|]. unfold Rdiv. rewrite Rmult_assoc, Rinv_l by lra. lra. }
    rewrite Rabs_mult, (Rabs_pos_eq (x / D)) by exact Hr0.
    apply Rle_trans with (Rabs (s * D - (l - f)) * 1).
    - apply Rmult_le_compat_l; [apply Rabs_pos|lra].
    - unfold W. lra. }
  assert (HsT : u * (Rabs s * IZR T) <= 2001 / 1000 * (W * tau) + slop).
  { apply Rle_trans with (u * ((2001 / 1000 * (M / D) + tiny) * IZR T)).
    - apply Rmult_le_compat_l; [lra|]. apply Rmult_le_compat_r; lra.
    - replace (u * ((2001 / 1000 * (M / D) + tiny) * IZR T))
        with (2001 / 1000 * (W * (IZR T / D)) + u * tiny * IZR T) by (unfold W; field; lra).
      rewrite <- Htau.
      assert (E4 : u * tiny * IZR T <= / 1000000 * tiny * 4503599627370496).
      { apply Rmult_le_compat; try lra; [apply Rmult_le_pos; lra|]. apply Rmult_le_compat_r; lra. }
      lra. }
  assert (Hpb : Rabs (R64 (f64_mul (fst line) (f64_of_Z t)) + R64 (snd line) - (f + s * x))
                <= 61 / 10 * (W * tau) + W + 5 * slop).
  { eapply Rle_trans; [exact Hv|]. rewrite Rmult_plus_distr_l.
    replace (u * (301 / 100 * (Rabs s * IZR T))) with (301 / 100 * (u * (Rabs s * IZR T))) by ring.
    fold W. lra. }
  pose proof (near_trans _ _ _ _ _ Hpb Hsx) as HpL. pose proof (near_size _ _ _ HpL) as HpLs.
  assert (HLM : Rabs (f + (l - f) * (x / D)) <= M).
  { pose proof (on_line_between t0 te f l t Ht Hlt) as Hbt. unfold on_line in Hbt. fold D x in Hbt.
    apply Rabs_le_inv in HfM. apply Rabs_le_inv in HlM. fold f in HfM. fold l in HlM.
    apply Rabs_le. unfold Rmin, Rmax in Hbt. destruct (Rle_dec f l); lra. }
  assert (Hslop1 : slop <= 1).
  { unfold slop. change 1 with (bpow radix2 0). apply bpow_le. lia. }
  cbn [num_add num_mul num_of_Z f64_num].
  destruct (add_near _ (snd line) Hvf Hbf) as [Hgf Hgr]; [lra|].
  split; [exact Hgf|].
  eapply Rle_trans; [eapply near_trans; [exact Hgr|exact HpL]|].
  assert (Hua : u * Rabs (R64 (f64_mul (fst line) (f64_of_Z t)) + R64 (snd line)) <= 2 * W + slop / 10).
  { apply Rle_trans with (u * (2 * M + 6 * slop)); [apply Rmult_le_compat_l; lra|].
    assert (u * slop <= / 1000 * slop) by (apply Rmult_le_compat_r; lra). unfold W. lra. }
  unfold value_error. fold W. rewrite Rmult_plus_distr_l.
  lra.
Qed.

Lemma line_size : forall t, (t0 <= t <= te)%Z ->
  Rabs (on_line t0 te (R32 first) (R32 last) t) <= M.
Proof.
  clear - HfM HlM Hlt. intros t Ht.
  pose proof (on_line_between t0 te (R32 first) (R32 last) t Ht Hlt) as Hbt.
  apply Rabs_le_inv in HfM. apply Rabs_le_inv in HlM. apply Rabs_le.
  unfold Rmin, Rmax in Hbt. destruct (Rle_dec (R32 first) (R32 last)); lra.
Qed.

Lemma value_error_small : 0 <= value_error /\ value_error <= M / 10 + 10 * slop
  /\ value_error + 2 / 16777216 * M + 2 * half32 <= rounding M T (te - t0) 0.
Proof.
  pose proof M_pos as HM0. pose proof tau_pos as Ht0.
  destruct powers as (E22 & E44 & E46 & E148 & _). unfold rounding. rewrite E22, E46, E148, <- Htau.
  rewrite E44 in Htau44. change (INR 0) with 0.
  destruct slop_bounds as (Hsl0 & _ & Hsl2 & _).
  assert (Hh0 : 0 < half32) by apply bpow_gt_0.
  assert (HMt : 0 <= M * tau) by (apply Rmult_le_pos; lra).
  assert (HMt2 : M * tau <= M * 17592186044416) by (apply Rmult_le_compat_l; lra).
  unfold value_error, u64r.
  replace (M * (/ 4194304 + (tau + 0) / 70368744177664))
    with (M * / 4194304 + M * tau * / 70368744177664) by field.
  match goal with |- context [?c * M * (7 * tau + 9)] =>
    replace (c * M * (7 * tau + 9)) with (c * (7 * (M * tau)) + c * (9 * M)) by ring end.
  split; [lra|]. split; lra.
Qed.

Lemma line_restored_near : forall t, (t0 <= t <= te)%Z ->
  let g := f32_of_f64 (swing_value N t0 te (f64_of_f32 first) (f64_of_f32 last) t) in
  finite32 g
  /\ Rabs (R32 g - on_line t0 te (R32 first) (R32 last) t) <= rounding M T (te - t0) 0.
Proof.
  intros t Ht g. destruct (line_value_near t Ht) as [Ha He'].
  destruct value_error_small as (V0 & V1 & V2). pose proof (line_size t Ht) as HL.
  pose proof M_pos as HM0. destruct slop_bounds as (Hsl0 & _ & Hsl2 & Hh).
  assert (Hh0 : 0 < half32) by apply bpow_gt_0.
  pose proof (near_size _ _ _ He') as Hs.
  destruct powers as (_ & _ & _ & _ & E120). rewrite E120 in HM.
  assert (Hb126 : bpow radix2 120 * 64 = bpow radix2 126).
  { change 64 with (bpow radix2 6). now rewrite <- bpow_plus. }
  assert (Hb120 : 1 <= bpow radix2 120) by (change 1 with (bpow radix2 0); apply bpow_le; lia).
  destruct (to_f32_near _ Ha) as [Hg1 Hg2]; [lra|]. split; [exact Hg1|].
  eapply Rle_trans; [eapply near_trans; [exact Hg2|exact He']|].
  assert (u32r * Rabs (R64 (swing_value N t0 te (f64_of_f32 first) (f64_of_f32 last) t))
          <= u32r * (11 / 10 * M + 10 * slop)).
  { apply Rmult_le_compat_l; [unfold u32r; lra|]. lra. }
  unfold u32r in *. lra.
Qed.

(** ** Sums *)
Definition sum_of (l : list R) : R := fold_right Rplus 0 l.
Definition line_sum (ts : list Z) : R := sum_of (map (on_line t0 te (R32 first) (R32 last)) ts).
Definition at_time (t : Z) : f64 := swing_value N t0 te (f64_of_f32 first) (f64_of_f32 last) t.
Notation B := (2 * M + 100 * slop).

Lemma B_pos : 0 < B.
Proof. clear - HfM. pose proof M_pos. destruct slop_bounds as (Hsl0 & _). lra. Qed.
Lemma at_time_size : forall t, (t0 <= t <= te)%Z -> Rabs (R64 (at_time t)) <= B / 2 + B / 10.
Proof.
  intros t Ht. destruct (line_value_near t Ht) as [_ H]. pose proof (near_size _ _ _ H).
  pose proof (line_size t Ht). destruct value_error_small as (_ & V1 & _). unfold at_time.
  pose proof M_pos. destruct slop_bounds as (Hsl0 & _). lra.
Qed.

(** Adding the values one after the other. *)
Lemma add_up : forall n ts k acc exact, Forall (fun t => (t0 <= t <= te)%Z) ts ->
  (k + Z.of_nat (length ts) <= n)%Z -> (0 <= k)%Z -> (n <= 2 ^ 24)%Z -> finite64 acc ->
  Rabs (R64 acc - exact) <= IZR k * (2 * u * IZR n * B + value_error) ->
  Rabs exact <= IZR k * M ->
  let r := fold_left (fun sum t => f64_add sum (at_time t)) ts acc in
  finite64 r
  /\ Rabs (R64 r - (exact + line_sum ts))
     <= IZR (k + Z.of_nat (length ts)) * (2 * u * IZR n * B + value_error)
  /\ Rabs (exact + line_sum ts) <= IZR (k + Z.of_nat (length ts)) * M.
Proof.
  intros n ts. induction ts as [|t ts IH]; intros k acc exact Hts Hk Hk0 Hn Ha He' Hx; cbn [fold_left].
  - unfold line_sum. cbn [map sum_of fold_right length]. rewrite Z.add_0_r, Rplus_0_r. auto.
  - inversion Hts as [|? ? Ht Hts']; subst. cbn [length] in Hk.
    destruct (line_value_near t Ht) as [Hvf Hv]. fold (at_time t) in Hvf, Hv.
    pose proof (at_time_size t Ht) as Hs. pose proof B_pos as HB.
    pose proof (line_size t Ht) as HL. destruct value_error_small as (V0 & V1 & _).
    pose proof M_pos as HM0. destruct slop_bounds as (Hsl0 & _ & _ & _).
    assert (Hkr : 0 <= IZR k <= IZR n - 1).
    { split; [now apply IZR_le|]. rewrite <- minus_IZR. apply IZR_le. lia. }
    assert (Hnr : IZR n <= 16777216) by (change 16777216 with (IZR (2 ^ 24)); now apply IZR_le).
    assert (HnB : IZR n * B <= 16777216 * B) by (apply Rmult_le_compat_r; lra).
    assert (Hsmall : 2 * u * IZR n * B + value_error <= B / 5).
    { unfold u64r. lra. }
    pose proof (near_size _ _ _ He') as Hacc.
    assert (HkB : IZR k * (2 * u * IZR n * B + value_error) <= IZR k * (B / 5)).
    { apply Rmult_le_compat_l; lra. }
    assert (HkB2 : IZR k * M <= IZR k * (B / 2)) by (apply Rmult_le_compat_l; lra).
    assert (HkB3 : IZR k * B <= (IZR n - 1) * B) by (apply Rmult_le_compat_r; lra).
    assert (HnB0 : 0 <= IZR n * B) by (apply Rmult_le_pos; lra).
    assert (Hab : Rabs (R64 acc + R64 (at_time t)) <= IZR n * B).
    { eapply Rle_trans; [apply Rabs_triang|]. lra. }
    destruct powers as (_ & _ & _ & _ & E120). rewrite E120 in HM.
    pose proof large_room as [Hlarge Hb200].
    assert (Hb : bpow radix2 120 <= bpow radix2 200) by (apply bpow_le; lia).
    assert (Hslop1 : slop <= 1) by (unfold slop; change 1 with (bpow radix2 0); apply bpow_le; lia).
    destruct (add_near acc (at_time t) Ha Hvf) as [Hf' Hr']; [lra|].
    assert (Hur : u * Rabs (R64 acc + R64 (at_time t)) <= u * (IZR n * B)).
    { apply Rmult_le_compat_l; [unfold u64r; lra|exact Hab]. }
    assert (HuB : 0 <= u * (IZR n * B)).
    { apply Rmult_le_pos; [unfold u64r; lra|]. apply Rmult_le_pos; lra. }
    change (line_sum (t :: ts)) with (on_line t0 te (R32 first) (R32 last) t + line_sum ts).
    cbn [length].
    set (L := on_line t0 te (R32 first) (R32 last) t) in *.
    replace (exact + (L + line_sum ts)) with (exact + L + line_sum ts) by ring.
    replace (k + Z.of_nat (S (length ts)))%Z with (k + 1 + Z.of_nat (length ts))%Z by lia.
    apply IH; auto; try lia.
    + rewrite plus_IZR.
      replace (R64 (f64_add acc (at_time t)) - (exact + L))
        with ((R64 (f64_add acc (at_time t)) - (R64 acc + R64 (at_time t)))
              + (R64 acc - exact) + (R64 (at_time t) - L)) by ring.
      eapply Rle_trans; [apply Rabs_sum3|].
      replace ((IZR k + 1) * (2 * u * IZR n * B + value_error))
        with (IZR k * (2 * u * IZR n * B + value_error) + 2 * (u * (IZR n * B)) + value_error) by ring.
      lra.
    + rewrite plus_IZR. eapply Rle_trans; [apply Rabs_triang|]. lra.
Qed.

Lemma sum_to_f32 : forall n r E, (1 <= n <= 2 ^ 24)%Z -> IZR n * M <= 2 ^ 120 -> finite64 r ->
  Rabs (R64 r - E) <= IZR n * (B / 268435456 + value_error) -> Rabs E <= IZR n * M ->
  finite32 (f32_of_f64 r)
  /\ Rabs (R32 (f32_of_f64 r) - E) <= IZR n * rounding M T (te - t0) 0.
Proof.
  intros n r E Hn HnM Hr Hnear HE.
  destruct value_error_small as (V0 & V1 & V2). pose proof M_pos as HM0. pose proof B_pos as HB.
  destruct slop_bounds as (Hsl0 & _ & Hsl2 & Hh).
  assert (Hh0 : 0 < half32) by apply bpow_gt_0.
  assert (Hnr : 1 <= IZR n <= 16777216).
  { split; [now apply IZR_le|]. change 16777216 with (IZR (2 ^ 24)). now apply IZR_le. }
  pose proof (near_size _ _ _ Hnear) as Hs.
  destruct powers as (_ & _ & _ & _ & E120). rewrite E120 in HnM.
  assert (Hb126 : bpow radix2 120 * 64 = bpow radix2 126).
  { change 64 with (bpow radix2 6). now rewrite <- bpow_plus. }
  assert (Hb120 : 1 <= bpow radix2 120) by (change 1 with (bpow radix2 0); apply bpow_le; lia).
  assert (Hn1 : IZR n * (B / 268435456 + value_error) <= IZR n * (11 / 100 * M + 11 * slop)).
  { apply Rmult_le_compat_l; lra. }
  assert (Hn2 : IZR n * slop <= 16777216 * slop) by (apply Rmult_le_compat_r; lra).
  destruct (to_f32_near r Hr) as [Hg1 Hg2]; [lra|]. split; [exact Hg1|].
  eapply Rle_trans; [eapply near_trans; [exact Hg2|exact Hnear]|].
  assert (Hu : u32r * Rabs (R64 r) <= u32r * (IZR n * (111 / 100 * M + 11 * slop))).
  { apply Rmult_le_compat_l; [unfold u32r; lra|]. lra. }
  assert (Hv : IZR n * (value_error + 2 / 16777216 * M + 2 * half32)
               <= IZR n * rounding M T (te - t0) 0) by (apply Rmult_le_compat_l; lra).
  assert (Hnh : 1 * half32 <= IZR n * half32) by (apply Rmult_le_compat_r; lra).
  assert (HnM0 : 0 <= IZR n * M) by (apply Rmult_le_pos; lra).
  unfold u32r in *. lra.
Qed.

Lemma sum_irregular : forall ts, Forall (fun t => (t0 <= t <= te)%Z) ts ->
  (1 <= Z.of_nat (length ts) <= 2 ^ 24)%Z -> INR (length ts) * M <= 2 ^ 120 ->
  let x := f32_of_f64 (fold_left (fun sum t => f64_add sum (at_time t)) ts f64_zero) in
  finite32 x /\ Rabs (R32 x - line_sum ts) <= INR (length ts) * rounding M T (te - t0) 0.
Proof.
  intros ts Hts Hn HnM. rewrite INR_IZR_INZ in *.
  assert (Hz : finite64 f64_zero /\ R64 f64_zero = 0) by (split; reflexivity).
  destruct Hz as [Hzf Hz].
  destruct (add_up (Z.of_nat (length ts)) ts 0 f64_zero 0 Hts ltac:(lia) ltac:(lia) ltac:(lia) Hzf)
    as (Hr & Hnear & HE).
  { rewrite Hz, Rminus_0_r, Rabs_R0. lra. }
  { rewrite Rabs_R0. lra. }
  rewrite Rplus_0_l, Z.add_0_l in *.
  apply (sum_to_f32 (Z.of_nat (length ts))); auto.
  eapply Rle_trans; [exact Hnear|]. apply Rmult_le_compat_l; [apply IZR_le; lia|].
  apply Rplus_le_compat_r.
  assert (Hnr : IZR (Z.of_nat (length ts)) <= 16777216).
  { change 16777216 with (IZR (2 ^ 24)). now apply IZR_le. }
  pose proof B_pos as HB.
  assert (IZR (Z.of_nat (length ts)) * B <= 16777216 * B) by (apply Rmult_le_compat_r; lra).
  unfold u64r. lra.
Qed.

Lemma sum_regular : forall n, (1 <= n <= 2 ^ 24)%Z -> IZR n * M <= 2 ^ 120 ->
  let average := f64_div (f64_add (at_time t0) (at_time te)) (f64_of_Z 2) in
  let x := f32_of_f64 (f64_mul average (f64_of_Z n)) in
  finite32 x /\ Rabs (R32 x - IZR n * ((R32 first + R32 last) / 2))
               <= IZR n * rounding M T (te - t0) 0.
Proof.
  intros n Hn HnM average x.
  destruct (line_value_near t0 ltac:(lia)) as [Haf Ha]. destruct (line_value_near te ltac:(lia)) as [Hbf Hb].
  fold (at_time t0) in Haf, Ha. fold (at_time te) in Hbf, Hb.
  pose proof (at_time_size t0 ltac:(lia)) as Has. pose proof (at_time_size te ltac:(lia)) as Hbs.
  unfold on_line in Ha, Hb. rewrite Z.sub_diag in Ha.
  assert (HD : IZR (te - t0) <> 0) by (apply not_0_IZR; lia).
  replace (R32 first + (R32 last - R32 first) * (0 / IZR (te - t0))) with (R32 first) in Ha
    by (field; exact HD).
  replace (R32 first + (R32 last - R32 first) * (IZR (te - t0) / IZR (te - t0))) with (R32 last) in Hb
    by (field; exact HD).
  set (a := at_time t0) in *. set (b := at_time te) in *.
  destruct value_error_small as (V0 & V1 & V2). pose proof M_pos as HM0. pose proof B_pos as HB.
  destruct slop_bounds as (Hsl0 & Hsl1 & Hsl2 & Hh). pose proof tiny_pos as Htp.
  pose proof tiny_mu as Htm. pose proof mu_pos as Hmp.
  assert (Hslop1 : slop <= 1) by (unfold slop; change 1 with (bpow radix2 0); apply bpow_le; lia).
  destruct powers as (_ & _ & _ & _ & E120).
  pose proof large_room as [Hlarge Hb200].
  assert (Hb2 : bpow radix2 120 <= bpow radix2 200) by (apply bpow_le; lia).
  assert (Hnr : 1 <= IZR n <= 16777216).
  { split; [now apply IZR_le|]. change 16777216 with (IZR (2 ^ 24)). now apply IZR_le. }
  assert (Hab : Rabs (R64 a + R64 b) <= 12 / 10 * B) by (eapply Rle_trans; [apply Rabs_triang|]; lra).
  rewrite E120 in HM.
  destruct (add_near a b Haf Hbf) as [Hsf Hs]; [lra|]. set (s := f64_add a b) in *.
  assert (Hus : u * Rabs (R64 a + R64 b) <= u * (12 / 10 * B)).
  { apply Rmult_le_compat_l; [unfold u64r; lra|exact Hab]. }
  destruct (of_Z_exact 2 ltac:(lia)) as [H2f H2].
  pose proof (near_size _ _ _ Hs) as Hss. unfold u64r in *.
  assert (Hs2 : Rabs (R64 s / 2) <= 7 / 10 * B).
  { unfold Rdiv. rewrite Rabs_mult, (Rabs_pos_eq (/ 2)) by lra. lra. }
  destruct (div_near s (f64_of_Z 2) Hsf) as [Hvf Hv]; rewrite ?H2; [lra|lra|].
  rewrite H2 in Hv. fold average in Hvf, Hv. set (v := R64 average) in *.
  assert (Hvnear : Rabs (v - (R32 first + R32 last) / 2) <= B / 1073741824 + value_error).
  { replace (v - (R32 first + R32 last) / 2)
      with ((v - R64 s / 2) + ((R64 s - (R64 a + R64 b)) / 2)
            + ((R64 a - R32 first) + (R64 b - R32 last)) / 2) by field.
    eapply Rle_trans; [apply Rabs_sum3|].
    assert (Rabs ((R64 s - (R64 a + R64 b)) / 2) <= / 2 * Rabs (R64 s - (R64 a + R64 b))).
    { unfold Rdiv. rewrite Rabs_mult, (Rabs_pos_eq (/ 2)) by lra. lra. }
    assert (Rabs (((R64 a - R32 first) + (R64 b - R32 last)) / 2) <= value_error).
    { unfold Rdiv. rewrite Rabs_mult, (Rabs_pos_eq (/ 2)) by lra.
      pose proof (Rabs_triang (R64 a - R32 first) (R64 b - R32 last)). lra. }
    unfold u64r in *. lra. }
  assert (Hmid : Rabs ((R32 first + R32 last) / 2) <= M).
  { unfold Rdiv. rewrite Rabs_mult, (Rabs_pos_eq (/ 2)) by lra.
    pose proof (Rabs_triang (R32 first) (R32 last)). lra. }
  pose proof (near_size _ _ _ Hvnear) as Hvs.
  destruct (of_Z_exact n ltac:(lia)) as [Hnf Hnz].
  assert (Hvn : Rabs (v * IZR n) <= IZR n * B).
  { rewrite Rabs_mult, (Rabs_pos_eq (IZR n)) by lra. rewrite Rmult_comm.
    apply Rmult_le_compat_l; lra. }
  assert (HnB : IZR n * B <= 16777216 * B) by (apply Rmult_le_compat_r; lra).
  destruct (mul_near average (f64_of_Z n) Hvf Hnf) as [Hmf Hm]; rewrite ?Hnz; fold v; [lra|].
  rewrite Hnz in Hm. fold v in Hm.
  apply sum_to_f32; auto.
  - replace (R64 (f64_mul average (f64_of_Z n)) - IZR n * ((R32 first + R32 last) / 2))
      with ((R64 (f64_mul average (f64_of_Z n)) - v * IZR n)
            + IZR n * (v - (R32 first + R32 last) / 2)) by ring.
    eapply Rle_trans; [apply Rabs_triang|]. rewrite Rabs_mult, (Rabs_pos_eq (IZR n)) by lra.
    assert (IZR n * Rabs (v - (R32 first + R32 last) / 2)
            <= IZR n * (B / 1073741824 + value_error)) by (apply Rmult_le_compat_l; lra).
    assert (Hns : 1 * slop <= IZR n * slop) by (apply Rmult_le_compat_r; lra).
    assert (HnM0 : 0 <= IZR n * M) by (apply Rmult_le_pos; lra).
    assert (Hum : u64r * Rabs (v * IZR n) <= u64r * (IZR n * B)).
    { apply Rmult_le_compat_l; [unfold u64r; lra|exact Hvn]. }
    unfold u64r in *. lra.
  - rewrite Rabs_mult, (Rabs_pos_eq (IZR n)) by lra. apply Rmult_le_compat_l; lra.
Qed.
End Line.
