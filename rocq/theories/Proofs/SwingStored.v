(** The values restored from a line stored by Swing with f64 arithmetic. *)
From Coq Require Import ZArith Reals Psatz Lra Bool Lia List Sorting.Sorted.
From Flocq Require Import Core IEEE754.BinarySingleNaN IEEE754.Binary IEEE754.Bits.
From Verif Require Import Model.Base Model.Float Model.ErrorBound Model.Swing
  Spec.ErrorBoundSpec Spec.SwingSpec
  Proofs.FloatProofs Proofs.ErrorBoundProofs Proofs.SwingProofs Proofs.SwingFloatProofs
  Proofs.SwingArithmetic Proofs.SwingRounding Proofs.SwingLimits Proofs.SwingAccepted.
Import ListNotations.
Open Scope R_scope.

Definition slop : R := bpow radix2 (-400).
Definition half32 : R := bpow radix2 (-150).
Lemma slop_bounds : 0 < slop /\ mu * 1125899906842624 <= slop /\ slop * 1125899906842624 <= half32
  /\ half32 <= / 1125899906842624.
Proof.
  split; [apply bpow_gt_0|].
  split; [|split].
  - change 1125899906842624 with (bpow radix2 50). unfold mu, slop. rewrite <- bpow_plus.
    apply bpow_le. lia.
  - change 1125899906842624 with (bpow radix2 50). unfold half32, slop. rewrite <- bpow_plus.
    apply bpow_le. lia.
  - change (/ 1125899906842624) with (bpow radix2 (-50)). apply bpow_le. lia.
Qed.

Lemma near_size : forall x y e, Rabs (x - y) <= e -> Rabs x <= Rabs y + e.
Proof.
  intros x y e H. replace x with ((x - y) + y) by ring.
  eapply Rle_trans; [apply Rabs_triang|]. lra.
Qed.
Lemma near_trans : forall x y z a b, Rabs (x - y) <= a -> Rabs (y - z) <= b -> Rabs (x - z) <= a + b.
Proof.
  intros x y z a b H1 H2. replace (x - z) with ((x - y) + (y - z)) by ring.
  eapply Rle_trans; [apply Rabs_triang|]. lra.
Qed.

Lemma to_f32_near : forall x, finite64 x -> Rabs (R64 x) <= bpow radix2 126 ->
  finite32 (f32_of_f64 x)
  /\ Rabs (R32 (f32_of_f64 x) - R64 x) <= u32r * Rabs (R64 x) + half32.
Proof.
  intros x Hf Hx. destruct (f32_of_f64_correct x Hf) as [H1 H2].
  - apply Rle_lt_trans with (bpow radix2 126); [|now apply bpow_lt].
    apply abs_round_le_generic; try typeclasses eauto; [|exact Hx].
    apply generic_format_bpow. unfold FLT_exp. lia.
  - split; [exact H1|]. rewrite H2. apply rnd32_any.
Qed.

Lemma f32_round_trip : forall v, finite32 v ->
  finite32 (f32_of_f64 (f64_of_f32 v)) /\ R32 (f32_of_f64 (f64_of_f32 v)) = R32 v.
Proof.
  intros v Hv. destruct (f64_of_f32_finite v Hv) as [Hf Hr].
  destruct (f32_of_f64_correct _ Hf) as [H1 H2]; rewrite Hr, rnd32_id in *.
  - apply R32_lt_max.
  - now split.
Qed.

Section Stored.
Context (Pl : platform) (eb : error_bound) (t0 T dz : Z) (v0 : f32) (S : R).
Notation N := (f64_num Pl).
Hypothesis Heb : valid_error_bound eb.
Hypothesis HT0 : (Z.abs t0 <= T)%Z.
Hypothesis HT : (T <= 2 ^ 52)%Z.
Hypothesis Hdz : (1 <= dz)%Z.
Hypothesis Hv0 : finite32 v0.
Hypothesis HS0 : 0 <= S.
Hypothesis HS : S <= bpow radix2 120.
Hypothesis Hv0S : Rabs (R32 v0) <= S.
Notation M := (M S).
Notation delta := (delta dz).
Notation P := (P T dz S).
Notation Q := (Q S).
Notation W := (u * M).

Lemma W_bounds : 0 < W < / 1000000 * M.
Proof. exact (uM_bounds S HS0 HS). Qed.
Lemma MB : 0 < M /\ S <= M /\ M <= bpow radix2 200 /\ M <= bpow radix2 120 * 2.
Proof.
  clear - HS0 HS.
  destruct (M_bounds S HS0 HS) as (H1 & H2 & H3). split; [exact H1|]. split; [exact H2|].
  split; [exact H3|]. unfold SwingAccepted.M.
  assert (mu * 1000 <= bpow radix2 120).
  { apply Rle_trans with (bpow radix2 (-500) * bpow radix2 10).
    - unfold mu. apply Rmult_le_compat_l; [apply bpow_ge_0|]. change (bpow radix2 10) with 1024. lra.
    - rewrite <- bpow_plus. apply bpow_le. lia. }
  pose proof mu_pos. lra.
Qed.

(** What a stored line adds to the error of the exact line. *)
Definition storing (tau : R) : R :=
  255 / 100 * (u32r * M) + W * (13 * tau + 30) + 2 * half32 + half32 / 5.

Lemma stored_near : forall X te L tau, finite64 X -> (t0 + dz <= te)%Z -> (Z.abs te <= T)%Z ->
  tau = IZR T / delta -> tau <= 17592186044416 ->
  L = R32 v0 + R64 X * IZR (te - t0) -> Rabs L <= 11 / 10 * M + slop ->
  Rabs (R64 X) <= 3 * bpow radix2 200 ->
  let first := f32_of_f64 (f64_of_f32 v0) in
  let last := f32_of_f64 (f64_add (f64_mul X (duration N t0 te)) (f64_of_f32 v0)) in
  forall t, (t0 <= t <= te)%Z -> Rabs (R32 v0 + R64 X * IZR (t - t0)) <= 11 / 10 * M + slop ->
  let g := f32_of_f64 (swing_value N t0 te (f64_of_f32 first) (f64_of_f32 last) t) in
  finite32 g /\ Rabs (R32 g - (R32 v0 + R64 X * IZR (t - t0))) <= storing tau.
Proof.
  intros X te L tau HXf Hte HteT Etau Htau EL HL HX first last t Htt Hlt g.
  pose proof u_small as Hu. pose proof W_bounds as HW. destruct MB as (HM0 & HSM & HM200 & HM120).
  pose proof tiny_pos as Htp. pose proof tiny_mu as Htm. pose proof mu_pos as Hmp.
  destruct slop_bounds as (Hsl0 & Hsl1 & Hsl2 & Hh).
  assert (Hh0 : 0 < half32) by apply bpow_gt_0.
  assert (Hb120 : 1 <= bpow radix2 120).
  { change 1 with (bpow radix2 0). apply bpow_le. lia. }
  assert (Hb126 : bpow radix2 120 * 64 = bpow radix2 126).
  { change 64 with (bpow radix2 6). now rewrite <- bpow_plus. }
  pose proof large_room as [Hlarge Hb200].
  assert (Ht0e : (t0 < te)%Z) by lia.
  destruct (duration_exact Pl t0 T HT0 HT te Ht0e HteT) as [Hdf Hdr].
  pose proof (duration_ge t0 T HT0 HT te Ht0e HteT) as HD.
  assert (HDd : 1 <= delta <= IZR (te - t0)) by (split; apply IZR_le; lia).
  destruct (f64_of_f32_finite v0 Hv0) as [H0f H0r].
  set (D := IZR (te - t0)) in *. set (f := R32 v0) in *.
  assert (HfM : Rabs f <= M) by lra.
  (* The last value. *)
  assert (HXD : Rabs (R64 X * D) <= 21 / 10 * M + slop).
  { replace (R64 X * D) with (L + - f) by (rewrite EL; ring).
    eapply Rle_trans; [apply Rabs_triang|]. rewrite Rabs_Ropp. lra. }
  destruct (mul_near X (duration N t0 te) HXf Hdf) as [Hmf Hmr]; rewrite ?Hdr; [lra|].
  rewrite Hdr in Hmr. fold D in Hmr. set (p := f64_mul X (duration N t0 te)) in *.
  assert (HuXD : u * Rabs (R64 X * D) <= 21 / 10 * W + slop).
  { assert (u * slop <= 1 * slop) by (apply Rmult_le_compat_r; lra).
    apply Rle_trans with (u * (21 / 10 * M + slop)); [apply Rmult_le_compat_l; lra|]. lra. }
  assert (Hpf : Rabs (R64 p + f - L) <= 21 / 10 * W + slop + tiny).
  { replace (R64 p + f - L) with (R64 p - R64 X * D) by (rewrite EL; ring). lra. }
  pose proof (near_size _ _ _ Hpf) as Hpf1.
  destruct (add_near p (f64_of_f32 v0) Hmf H0f) as [Haf Har]; rewrite ?H0r; [lra|].
  rewrite H0r in Har. fold f in Har. set (l64 := f64_add p (f64_of_f32 v0)) in *.
  assert (Hupf : u * Rabs (R64 p + f) <= 12 / 10 * W + slop).
  { assert (u * slop <= / 10 * slop) by (apply Rmult_le_compat_r; lra).
    apply Rle_trans with (u * (12 / 10 * M + 10 * slop)); [apply Rmult_le_compat_l; lra|]. lra. }
  assert (Hl64 : Rabs (R64 l64 - L) <= 4 * W + 3 * slop).
  { eapply Rle_trans; [eapply near_trans; [exact Har|exact Hpf]|]. lra. }
  pose proof (near_size _ _ _ Hl64) as Hl64s.
  destruct (to_f32_near l64 Haf) as [Hlf Hl32]; [lra|]. fold last in Hlf, Hl32.
  assert (Hu32 : 0 < u32r < / 1000) by (unfold u32r; lra).
  assert (Hul : u32r * Rabs (R64 l64) <= u32r * (111 / 100 * M) + slop).
  { apply Rle_trans with (u32r * (111 / 100 * M + 4 * slop)); [apply Rmult_le_compat_l; lra|].
    assert (u32r * slop <= / 4 * slop) by (apply Rmult_le_compat_r; lra). lra. }
  set (UM := u32r * M) in *.
  assert (HUM : 0 < UM < / 1000 * M).
  { unfold UM. split; [apply Rmult_lt_0_compat; lra|apply Rmult_lt_compat_r; lra]. }
  assert (Hlast : Rabs (R32 last - L) <= 111 / 100 * UM + 4 * W + 4 * slop + half32).
  { eapply Rle_trans; [eapply near_trans; [exact Hl32|exact Hl64]|]. unfold UM. lra. }
  pose proof (near_size _ _ _ Hlast) as Hlasts.
  (* The line that is restored. *)
  set (M' := 2 * M + 2 * half32).
  assert (HM' : 0 <= M' /\ M' <= bpow radix2 200).
  { split; [unfold M'; lra|]. unfold M'.
    assert (bpow radix2 120 * 64 <= bpow radix2 200).
    { rewrite Hb126. apply bpow_le. lia. }
    lra. }
  destruct (f32_round_trip v0 Hv0) as [Hff Hfr]. fold first in Hff, Hfr. fold f in Hfr.
  destruct (f64_of_f32_finite first Hff) as [Hf6 Hf6r].
  destruct (f64_of_f32_finite last Hlf) as [Hl6 Hl6r].
  destruct (fitted Pl t0 T M' HT0 HT (proj1 HM') (proj2 HM') (f64_of_f32 first) (f64_of_f32 last)
              te Hf6 Hl6) as [Hline Hfit]; auto.
  { rewrite Hf6r, Hfr. unfold M'. lra. }
  { rewrite Hl6r. unfold M'. lra. }
  rewrite Hf6r, Hl6r, Hfr in *. fold D in Hline, Hfit.
  unfold g, swing_value. clear g.
  set (line := compute_slope_and_intercept N t0 (f64_of_f32 first) te (f64_of_f32 last)) in *.
  destruct Hline as (Hsf & Hbf & HsD & Hval).
  destruct (slope_small t0 T M' HT0 HT (proj1 HM') (proj2 HM') D _ ltac:(lra) HsD) as (Hs1 & _).
  destruct (Hval t ltac:(lia)) as [Hvf Hv]. clear Hval.
  set (s := R64 (fst line)) in *.
  set (x := IZR (t - t0)) in *.
  assert (Hx : 0 <= x <= D) by (split; apply IZR_le; lia).
  set (Lx := f + R64 X * x) in *.
  assert (HWt : 0 <= W * tau).
  { apply Rmult_le_pos; [lra|]. rewrite Etau. apply Rmult_le_pos; [apply IZR_le; lia|].
    left. apply Rinv_0_lt_compat. lra. }
  pose proof (T_bounds t0 T HT0 HT) as HTb.
  assert (HTD : 0 <= IZR T / D <= tau).
  { rewrite Etau. unfold Rdiv. split.
    - apply Rmult_le_pos; [lra|]. left. apply Rinv_0_lt_compat. lra.
    - apply Rmult_le_compat_l; [lra|]. apply Rinv_le_contravar; lra. }
  (* The slopes differ little. *)
  assert (HDt : D * tiny <= slop / 1000).
  { assert (D * tiny <= 9007199254740992 * tiny) by (apply Rmult_le_compat_r; lra). lra. }
  assert (HuM' : u * M' <= 2 * W + half32 / 1000).
  { unfold M'. assert (u * half32 <= / 1000000 * half32) by (apply Rmult_le_compat_r; lra). lra. }
  assert (HsX : Rabs (s * D - R64 X * D)
                <= 5 * (u * M') + slop / 1000 + (111 / 100 * UM + 4 * W + 4 * slop + half32)).
  { replace (s * D - R64 X * D) with ((s * D - (R32 last - f)) + (R32 last - L)) by (rewrite EL; ring).
    eapply Rle_trans; [apply Rabs_triang|]. lra. }
  assert (Hsx : Rabs (f + s * x - Lx) <= 112 / 100 * UM + 14 * W + half32 + half32 / 100).
  { unfold Lx. replace (f + s * x - (f + R64 X * x)) with ((s * D - R64 X * D) * (x / D)) by (field; lra).
    rewrite Rabs_mult. rewrite (Rabs_pos_eq (x / D)).
    2:{ apply Rmult_le_pos; [lra|]. left. apply Rinv_0_lt_compat. lra. }
    assert (Hr : x / D <= 1).
    { apply Rmult_le_reg_r with D; [lra|]. unfold Rdiv. rewrite Rmult_assoc, Rinv_l by lra. lra. }
    apply Rle_trans with (Rabs (s * D - R64 X * D) * 1).
    - apply Rmult_le_compat_l; [apply Rabs_pos|lra].
    - lra. }
  assert (HsT : u * (Rabs s * IZR T) <= 2001 / 1000 * (2 * (W * tau)) + half32 / 100 + slop).
  { apply Rle_trans with (u * ((2001 / 1000 * (M' / D) + tiny) * IZR T)).
    - apply Rmult_le_compat_l; [lra|]. apply Rmult_le_compat_r; lra.
    - replace (u * ((2001 / 1000 * (M' / D) + tiny) * IZR T))
        with (2001 / 1000 * (u * (M' * (IZR T / D))) + u * tiny * IZR T) by (field; lra).
      assert (M' * (IZR T / D) <= M' * tau) by (apply Rmult_le_compat_l; lra).
      assert (E1 : u * (M' * (IZR T / D)) <= u * (M' * tau)) by (apply Rmult_le_compat_l; lra).
      assert (E2 : u * (M' * tau) = 2 * (W * tau) + 2 * half32 * (u * tau)) by (unfold M'; ring).
      assert (E3 : half32 * (u * tau) <= half32 * / 500).
      { apply Rmult_le_compat_l; [lra|]. unfold u64r. lra. }
      assert (E4 : u * tiny * IZR T <= / 1000000 * tiny * 4503599627370496).
      { apply Rmult_le_compat; try lra; [apply Rmult_le_pos; lra|]. apply Rmult_le_compat_r; lra. }
      lra. }
  assert (Hpb : Rabs (R64 (f64_mul (fst line) (f64_of_Z t)) + R64 (snd line) - (f + s * x))
                <= 121 / 10 * (W * tau) + 2 * W + half32 / 20 + 5 * slop).
  { eapply Rle_trans; [exact Hv|]. rewrite Rmult_plus_distr_l.
    replace (u * (301 / 100 * (Rabs s * IZR T))) with (301 / 100 * (u * (Rabs s * IZR T))) by ring.
    lra. }
  assert (HWt2 : W * tau <= M / 500).
  { replace (W * tau) with (M * (u * tau)) by ring. unfold Rdiv. apply Rmult_le_compat_l; [lra|].
    unfold u64r. lra. }
  pose proof (near_trans _ _ _ _ _ Hpb Hsx) as HpL.
  pose proof (near_size _ _ _ HpL) as HpLs.
  cbn [num_add num_mul num_of_Z f64_num].
  destruct (add_near _ (snd line) Hvf Hbf) as [Hgf Hgr]; [lra|].
  set (a := f64_add (f64_mul (fst line) (f64_of_Z t)) (snd line)) in *.
  assert (Hua : u * Rabs (R64 (f64_mul (fst line) (f64_of_Z t)) + R64 (snd line))
                <= 2 * W + half32 / 100).
  { apply Rle_trans with (u * (2 * M + 2 * half32)); [apply Rmult_le_compat_l; lra|].
    assert (u * half32 <= / 1000 * half32) by (apply Rmult_le_compat_r; lra). lra. }
  pose proof (near_trans _ _ _ _ _ Hgr HpL) as HgL.
  pose proof (near_size _ _ _ HgL) as HgLs.
  destruct (to_f32_near a Hgf) as [Hg1 Hg2]; [lra|]. split; [exact Hg1|].
  eapply Rle_trans; [eapply near_trans; [exact Hg2|exact HgL]|].
  assert (Hug : u32r * Rabs (R64 a) <= 12 / 10 * UM + half32 / 100).
  { apply Rle_trans with (u32r * (12 / 10 * M + 3 * half32)); [apply Rmult_le_compat_l; lra|].
    assert (u32r * half32 <= / 1000 * half32) by (apply Rmult_le_compat_r; lra). unfold UM. lra. }
  unfold storing. fold UM.
  lra.
Qed.
End Stored.
