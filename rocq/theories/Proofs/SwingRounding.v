(** How far the lines of Swing are from the accepted values with f64 arithmetic. *)
From Coq Require Import ZArith Reals Psatz Lra Bool Lia List.
From Flocq Require Import Core IEEE754.BinarySingleNaN IEEE754.Binary IEEE754.Bits.
From Verif Require Import Model.Base Model.Float Model.ErrorBound Model.Swing
  Spec.ErrorBoundSpec Spec.SwingSpec
  Proofs.FloatProofs Proofs.ErrorBoundProofs Proofs.SwingFloatProofs Proofs.SwingArithmetic.
Import ListNotations.
Open Scope R_scope.

Notation u := u64r.
Lemma u_small : 0 < u < / 1000000.
Proof. unfold u64r. lra. Qed.

Lemma Rabs_sum3 : forall a b c, Rabs (a + b + c) <= Rabs a + Rabs b + Rabs c.
Proof. intros. pose proof (Rabs_triang (a + b) c). pose proof (Rabs_triang a b). lra. Qed.

(** ** One line *)
(** The slope through two values. *)
Lemma slope_near : forall M D f y q s, 1 <= D -> Rabs f <= M -> Rabs y <= M ->
  Rabs (q - (y - f)) <= u * Rabs (y - f) -> Rabs (s - q / D) <= u * Rabs (q / D) + tiny ->
  Rabs (s * D - (y - f)) <= 5 * u * M + D * tiny.
Proof.
  intros M D f y q s HD Hf Hy Hq Hs. pose proof u_small as Hu.
  assert (Hyf : Rabs (y - f) <= 2 * M).
  { unfold Rminus. eapply Rle_trans; [apply Rabs_triang|]. rewrite Rabs_Ropp. lra. }
  assert (Huyf : u * Rabs (y - f) <= u * (2 * M)) by (apply Rmult_le_compat_l; lra).
  assert (HM : 0 <= M) by (pose proof (Rabs_pos f); lra).
  assert (HuM : 0 <= u * M) by (apply Rmult_le_pos; lra).
  assert (Hq1 : Rabs q <= (2 + 2 * u) * M).
  { replace q with ((q - (y - f)) + (y - f)) by ring.
    eapply Rle_trans; [apply Rabs_triang|]. lra. }
  assert (Hs1 : Rabs (s * D - q) <= u * Rabs q + D * tiny).
  { replace (s * D - q) with ((s - q / D) * D) by (field; lra).
    rewrite Rabs_mult. rewrite (Rabs_pos_eq D) by lra.
    apply Rle_trans with ((u * Rabs (q / D) + tiny) * D); [apply Rmult_le_compat_r; lra|].
    unfold Rdiv. rewrite Rabs_mult, (Rabs_pos_eq (/ D)).
    - right. field. lra.
    - left. apply Rinv_0_lt_compat. lra. }
  assert (Huq : u * Rabs q <= u * ((2 + 2 * u) * M)) by (apply Rmult_le_compat_l; lra).
  assert (Huu : u * (u * M) <= / 1000000 * (u * M)) by (apply Rmult_le_compat_r; lra).
  replace (s * D - (y - f)) with ((s * D - q) + (q - (y - f))) by ring.
  eapply Rle_trans; [apply Rabs_triang|]. lra.
Qed.

(** The value of a line before the last addition. *)
Lemma value_near : forall M T f s t0 t p0 b p, Rabs t0 <= T -> Rabs t <= T -> Rabs f <= M ->
  Rabs (p0 - s * t0) <= u * Rabs (s * t0) + tiny ->
  Rabs (b - (f - p0)) <= u * Rabs (f - p0) ->
  Rabs (p - s * t) <= u * Rabs (s * t) + tiny ->
  Rabs (p + b - (f + s * (t - t0))) <= u * (301 / 100 * (Rabs s * T) + M) + 4 * tiny.
Proof.
  intros M T f s t0 t p0 b p Ht0 Ht Hf Hp0 Hb Hp. pose proof u_small as Hu.
  pose proof tiny_pos as Htp.
  assert (Hst : forall x, Rabs x <= T -> Rabs (s * x) <= Rabs s * T).
  { intros x Hx. rewrite Rabs_mult. apply Rmult_le_compat_l; [apply Rabs_pos|exact Hx]. }
  pose proof (Hst _ Ht) as H1. pose proof (Hst _ Ht0) as H0.
  set (X := Rabs s * T) in *.
  assert (HX : 0 <= X) by (pose proof (Rabs_pos (s * t)); lra).
  assert (HuX : 0 <= u * X) by (apply Rmult_le_pos; lra).
  assert (E1 : u * Rabs (s * t) <= u * X) by (apply Rmult_le_compat_l; lra).
  assert (E0 : u * Rabs (s * t0) <= u * X) by (apply Rmult_le_compat_l; lra).
  assert (Hfp : Rabs (f - p0) <= M + (X + u * X + tiny)).
  { replace (f - p0) with (f + - (p0 - s * t0) + - (s * t0)) by ring.
    eapply Rle_trans; [apply Rabs_sum3|]. rewrite !Rabs_Ropp. lra. }
  assert (Eb : u * Rabs (f - p0) <= u * (M + (X + u * X + tiny)))
    by (apply Rmult_le_compat_l; lra).
  assert (Huu : u * (u * X) <= / 1000000 * (u * X)) by (apply Rmult_le_compat_r; lra).
  assert (Hut : u * tiny <= 1 * tiny) by (apply Rmult_le_compat_r; lra).
  replace (p + b - (f + s * (t - t0)))
    with ((p - s * t) + (b - (f - p0)) + - (p0 - s * t0)) by ring.
  eapply Rle_trans; [apply Rabs_sum3|]. rewrite Rabs_Ropp. lra.
Qed.

(** ** The limits of one side over time *)
Section Side.
Context (f delta P Q : R).
Hypothesis Hdelta : 0 < delta.
Hypothesis HP : 0 <= P.
Hypothesis HQ : 0 <= Q.

(** How much the line with slope [s], fitted [D] after the first value and [k] data points in
    total, can be above the limit [c] of the data point [x] after the first value. *)
Definition side_ok (k D s x c : R) : Prop :=
  (x <= D -> f + s * x <= c + 2 * (P + Q) + P * (1 - x / D) + k * Q)
  /\ (D < x -> f + s * x <= c + (P + Q)).

Lemma side_bound : forall k D s x c, 0 <= k -> 0 < x -> 0 < D -> side_ok k D s x c ->
  f + s * x <= c + 3 * P + 2 * Q + k * Q.
Proof.
  intros k D s x c Hk Hx HD [H1 H2].
  assert (HkQ : 0 <= k * Q) by (apply Rmult_le_pos; lra).
  destruct (Rle_or_lt x D) as [H|H].
  - specialize (H1 H).
    assert (Hd : 0 < x / D) by (apply Rdiv_lt_0_compat; lra).
    assert (P * (1 - x / D) <= P * 1) by (apply Rmult_le_compat_l; lra). lra.
  - specialize (H2 H). lra.
Qed.

Lemma side_more : forall k D s x c, side_ok k D s x c -> side_ok (k + 1) D s x c.
Proof.
  intros k D s x c [H1 H2]. split; intros H; [specialize (H1 H)|specialize (H2 H)]; lra.
Qed.

Lemma side_update : forall k D s x c D' s', 0 <= k -> 0 < x <= D' -> delta <= D ->
  delta <= D' - D -> s' * D' <= s * D' + (P * (delta / D) + Q) ->
  side_ok k D s x c -> side_ok (k + 1) D' s' x c.
Proof.
  intros k D s x c D' s' Hk [Hx HxD'] HD HDD Hs [H1 H2]. split; [intros _|lra].
  (* What the new slope adds at x. *)
  assert (Hr : 0 < x / D' <= 1).
  { split; [apply Rdiv_lt_0_compat; lra|]. apply Rmult_le_reg_r with D'; [lra|].
    unfold Rdiv. rewrite Rmult_assoc, Rinv_l by lra. lra. }
  assert (Hsx : s' * x <= s * x + (P * (delta / D) + Q) * (x / D')).
  { apply (Rmult_le_compat_r (x / D')) in Hs; [|lra].
    replace (s' * D' * (x / D')) with (s' * x) in Hs by (field; lra).
    replace ((s * D' + (P * (delta / D) + Q)) * (x / D'))
      with (s * x + (P * (delta / D) + Q) * (x / D')) in Hs by (field; lra).
    exact Hs. }
  assert (HQx : Q * (x / D') <= Q * 1) by (apply Rmult_le_compat_l; lra).
  assert (HkQ : 0 <= k * Q) by (apply Rmult_le_pos; lra).
  destruct (Rle_or_lt x D) as [H|H].
  - specialize (H1 H).
    assert (HPx : P * (delta / D) * (x / D') <= P * (x / D - x / D')).
    { rewrite Rmult_assoc. apply Rmult_le_compat_l; [exact HP|].
      replace (x / D - x / D') with ((D' - D) / D * (x / D')) by (field; lra).
      apply Rmult_le_compat_r; [lra|]. unfold Rdiv. apply Rmult_le_compat_r; [|lra].
      left. apply Rinv_0_lt_compat. lra. }
    lra.
  - specialize (H2 H).
    assert (Hd : delta / D <= 1).
    { apply Rmult_le_reg_r with D; [lra|]. unfold Rdiv. rewrite Rmult_assoc, Rinv_l by lra. lra. }
    assert (Hd0 : 0 < delta / D) by (apply Rdiv_lt_0_compat; lra).
    assert (P * (delta / D) * (x / D') <= P * 1).
    { rewrite Rmult_assoc. apply Rmult_le_compat_l; [exact HP|].
      rewrite <- (Rmult_1_r 1). apply Rmult_le_compat; lra. }
    assert (0 <= P * (1 - x / D')) by (apply Rmult_le_pos; lra).
    lra.
Qed.

(** The data point for which the line was fitted. *)
Lemma side_new : forall k D s c, 0 <= k -> 0 < D -> f + s * D <= c + Q -> side_ok (k + 1) D s D c.
Proof.
  intros k D s c Hk HD H. split; [intros _|lra].
  assert (HkQ : 0 <= k * Q) by (apply Rmult_le_pos; lra).
  replace (D / D) with 1 by (field; lra). lra.
Qed.

(** A later data point for which the line was not changed. *)
Lemma side_keep : forall k D s x c, D < x -> delta <= D ->
  f + s * x <= c + (P * (delta / D) + Q) -> side_ok (k + 1) D s x c.
Proof.
  intros k D s x c Hx HD H. split; [lra|intros _].
  assert (Hd : delta / D <= 1).
  { apply Rmult_le_reg_r with D; [lra|]. unfold Rdiv. rewrite Rmult_assoc, Rinv_l by lra. lra. }
  assert (P * (delta / D) <= P * 1) by (apply Rmult_le_compat_l; lra). lra.
Qed.
End Side.

(** ** Lines in f64 *)
Lemma large_room : bpow radix2 200 * 1267650600228229401496703205376 <= large /\ 1 <= bpow radix2 200.
Proof.
  split.
  - change 1267650600228229401496703205376 with (bpow radix2 100). rewrite <- bpow_plus.
    apply bpow_le. lia.
  - change 1 with (bpow radix2 0). apply bpow_le. lia.
Qed.
Lemma tiny_small : tiny <= / 1267650600228229401496703205376.
Proof.
  change (/ 1267650600228229401496703205376) with (bpow radix2 (-100)). apply bpow_le. lia.
Qed.

Section Lines.
Context (Pl : platform) (t0 T : Z) (M : R).
Notation N := (f64_num Pl).
Hypothesis HT0 : (Z.abs t0 <= T)%Z.
Hypothesis HT : (T <= 2 ^ 52)%Z.
Hypothesis HM0 : 0 <= M.
Hypothesis HM : M <= bpow radix2 200.

Definition line_ok (f D : R) (s b : f64) : Prop :=
  finite64 s /\ finite64 b /\ Rabs (R64 s) * D <= 2001 / 1000 * M + D * tiny
  /\ forall t, (Z.abs t <= T)%Z ->
     finite64 (f64_mul s (f64_of_Z t))
     /\ Rabs (R64 (f64_mul s (f64_of_Z t)) + R64 b - (f + R64 s * IZR (t - t0)))
        <= u * (301 / 100 * (Rabs (R64 s) * IZR T) + M) + 4 * tiny.

Lemma T_bounds : 0 <= IZR T <= 4503599627370496.
Proof.
  split; [apply IZR_le; lia|]. change 4503599627370496 with (IZR (2 ^ 52)). now apply IZR_le.
Qed.
Lemma in_T : forall t, (Z.abs t <= T)%Z -> Rabs (IZR t) <= IZR T.
Proof. intros t Ht. rewrite <- abs_IZR. now apply IZR_le. Qed.

(** A bound on slopes that is enough to exclude overflows. *)
Lemma slope_small : forall D s, 1 <= D -> Rabs s * D <= 2001 / 1000 * M + D * tiny ->
  Rabs s <= 2001 / 1000 * (M / D) + tiny /\ Rabs s <= 3 * bpow radix2 200
  /\ Rabs s * IZR T <= 3 * bpow radix2 200 * 4503599627370496.
Proof.
  intros D s HD H. pose proof tiny_small as Ht. pose proof (proj2 large_room) as Hb.
  assert (H1 : Rabs s <= 2001 / 1000 * (M / D) + tiny).
  { apply Rmult_le_reg_r with D; [lra|].
    replace ((2001 / 1000 * (M / D) + tiny) * D) with (2001 / 1000 * M + D * tiny) by (field; lra).
    exact H. }
  assert (HMD : M / D <= M).
  { unfold Rdiv. rewrite <- (Rmult_1_r M) at 2. apply Rmult_le_compat_l; [lra|].
    rewrite <- Rinv_1. apply Rinv_le_contravar; lra. }
  assert (H2 : Rabs s <= 3 * bpow radix2 200) by lra.
  split; [exact H1|]. split; [exact H2|].
  pose proof T_bounds. apply Rmult_le_compat; try lra. apply Rabs_pos.
Qed.

Lemma duration_exact : forall t, (t0 < t)%Z -> (Z.abs t <= T)%Z ->
  finite64 (duration N t0 t) /\ R64 (duration N t0 t) = IZR (t - t0).
Proof.
  intros t Ht HtT. unfold duration. cbn [num_of_Z f64_num].
  replace (i64 (t - t0)) with (t - t0)%Z
    by (unfold i64; rewrite Z.mod_small by lia; lia).
  apply of_Z_exact. lia.
Qed.

Lemma duration_ge : forall t, (t0 < t)%Z -> (Z.abs t <= T)%Z ->
  1 <= IZR (t - t0) <= 9007199254740992.
Proof.
  intros t Ht HtT. change 9007199254740992 with (IZR (2 ^ 53)). split; apply IZR_le; lia.
Qed.

Lemma fitted : forall first last t, finite64 first -> finite64 last ->
  Rabs (R64 first) <= M -> Rabs (R64 last) <= M -> (t0 < t)%Z -> (Z.abs t <= T)%Z ->
  let l := compute_slope_and_intercept N t0 first t last in
  line_ok (R64 first) (IZR (t - t0)) (fst l) (snd l)
  /\ Rabs (R64 (fst l) * IZR (t - t0) - (R64 last - R64 first))
     <= 5 * u * M + IZR (t - t0) * tiny.
Proof.
  intros first last t Hff Hlf Hf Hl Ht HtT l.
  pose proof u_small as Hu. pose proof tiny_pos as Htp. pose proof tiny_small as Hts.
  pose proof large_room as [Hlarge Hb]. pose proof T_bounds as HTb.
  pose proof (duration_ge t Ht HtT) as HD. set (D := IZR (t - t0)) in *.
  assert (HuM : 0 <= u * M) by (apply Rmult_le_pos; lra).
  assert (HDt : 0 <= D * tiny) by (apply Rmult_le_pos; lra).
  assert (HuMs : u * M <= / 1000000 * M) by (apply Rmult_le_compat_r; lra).
  unfold l, compute_slope_and_intercept.
  change (num_equal_or_nan N first last) with (equal_or_nan first last).
  destruct (equal_or_nan first last) eqn:E; cbn [fst snd num_of_Z f64_num].
  - (* A horizontal line. *)
    assert (Eq : R64 first = R64 last).
    { unfold equal_or_nan in E. apply orb_true_iff in E. destruct E as [E|E].
      - now apply f64_eq_iff.
      - apply andb_true_iff in E. destruct E as [E _]. destruct first; discriminate. }
    destruct (of_Z_exact 0 ltac:(lia)) as [Hzf Hzr].
    split.
    + split; [exact Hzf|]. split; [exact Hff|]. rewrite Hzr, Rabs_R0. split; [lra|].
      intros t' Ht'. destruct (of_Z_exact t' ltac:(lia)) as [Htf Htr].
      destruct (mul_near (f64_of_Z 0) (f64_of_Z t') Hzf Htf) as [Hmf Hmr].
      { rewrite Hzr, Rmult_0_l, Rabs_R0. lra. }
      split; [exact Hmf|]. rewrite Hzr, !Rmult_0_l, Rabs_R0 in Hmr.
      replace (R64 (f64_mul (f64_of_Z 0) (f64_of_Z t')) + R64 first - (R64 first + 0 * IZR (t' - t0)))
        with (R64 (f64_mul (f64_of_Z 0) (f64_of_Z t')) - 0) by ring. lra.
    + rewrite Hzr, Eq. replace (0 * D - (R64 last - R64 last)) with 0 by ring. rewrite Rabs_R0. lra.
  - destruct (duration_exact t Ht HtT) as [Hdf Hdr]. fold D in Hdr.
    assert (Hyf : Rabs (R64 last - R64 first) <= 2 * M).
    { unfold Rminus. eapply Rle_trans; [apply Rabs_triang|]. rewrite Rabs_Ropp. lra. }
    destruct (sub_near last first Hlf Hff) as [Hqf Hqr]; [lra|].
    cbn [num_div num_sub num_mul f64_num].
    set (q := f64_sub last first) in *.
    assert (Huyf : u * Rabs (R64 last - R64 first) <= / 1000000 * (2 * M)).
    { apply Rmult_le_compat; try lra. apply Rabs_pos. }
    assert (Hq1 : Rabs (R64 q) <= 3 * M).
    { replace (R64 q) with ((R64 q - (R64 last - R64 first)) + (R64 last - R64 first)) by ring.
      eapply Rle_trans; [apply Rabs_triang|]. lra. }
    assert (HqD : Rabs (R64 q / D) <= 3 * M).
    { unfold Rdiv. rewrite Rabs_mult, (Rabs_pos_eq (/ D)) by (left; apply Rinv_0_lt_compat; lra).
      apply Rle_trans with (Rabs (R64 q) * 1); [|lra]. apply Rmult_le_compat_l; [apply Rabs_pos|].
      rewrite <- Rinv_1. apply Rinv_le_contravar; lra. }
    destruct (div_near q (duration N t0 t) Hqf) as [Hsf Hsr]; rewrite ?Hdr; try lra.
    rewrite Hdr in Hsr. set (s := f64_div q (duration N t0 t)) in *.
    assert (Hs : Rabs (R64 s * D - (R64 last - R64 first)) <= 5 * u * M + D * tiny).
    { apply (slope_near M D (R64 first) (R64 last) (R64 q)); auto; lra. }
    assert (HsD : Rabs (R64 s) * D <= 2001 / 1000 * M + D * tiny).
    { rewrite <- (Rabs_pos_eq D) at 1 by lra. rewrite <- Rabs_mult.
      replace (R64 s * D) with ((R64 s * D - (R64 last - R64 first)) + (R64 last - R64 first)) by ring.
      eapply Rle_trans; [apply Rabs_triang|]. lra. }
    destruct (slope_small D (R64 s) ltac:(lra) HsD) as (_ & Hs2 & HsT).
    assert (Hprod : forall t', (Z.abs t' <= T)%Z ->
      Rabs (R64 s * IZR t') <= 3 * bpow radix2 200 * 4503599627370496).
    { intros t' Ht'. rewrite Rabs_mult. eapply Rle_trans; [|exact HsT].
      apply Rmult_le_compat_l; [apply Rabs_pos|]. now apply in_T. }
    assert (Hmul : forall t', (Z.abs t' <= T)%Z ->
      finite64 (f64_mul s (f64_of_Z t'))
      /\ Rabs (R64 (f64_mul s (f64_of_Z t')) - R64 s * IZR t') <= u * Rabs (R64 s * IZR t') + tiny).
    { intros t' Ht'. destruct (of_Z_exact t' ltac:(lia)) as [Htf Htr].
      pose proof (Hprod t' Ht') as Hp'.
      destruct (mul_near s (f64_of_Z t') Hsf Htf) as [Hmf Hmr]; rewrite ?Htr; [lra|].
      rewrite Htr in Hmr. split; assumption. }
    destruct (Hmul t0 HT0) as [Hp0f Hp0r]. pose proof (Hprod t0 HT0) as Hp0.
    set (p0 := f64_mul s (f64_of_Z t0)) in *.
    assert (Hfp : Rabs (R64 first - R64 p0) <= large).
    { replace (R64 first - R64 p0)
        with (R64 first + - (R64 p0 - R64 s * IZR t0) + - (R64 s * IZR t0)) by ring.
      eapply Rle_trans; [apply Rabs_sum3|]. rewrite !Rabs_Ropp.
      assert (u * Rabs (R64 s * IZR t0) <= 1 * Rabs (R64 s * IZR t0))
        by (apply Rmult_le_compat_r; [apply Rabs_pos|lra]).
      lra. }
    destruct (sub_near first p0 Hff Hp0f Hfp) as [Hbf Hbr].
    split; [|exact Hs].
    split; [exact Hsf|]. split; [exact Hbf|]. split; [exact HsD|].
    intros t' Ht'. destruct (Hmul t' Ht') as [Hpf Hpr]. split; [exact Hpf|].
    rewrite minus_IZR.
    apply (value_near M (IZR T) (R64 first) (R64 s) (IZR t0) (IZR t') (R64 p0)); auto using in_T.
Qed.

(** How far the value of a line can be wrong in a comparison. *)
Definition comparison_error (s : f64) : R :=
  u * (301 / 100 * (Rabs (R64 s) * IZR T) + 6 * M) + 4 * tiny.

Lemma compared : forall f D s b t v d, 1 <= D -> Rabs f <= M -> line_ok f D s b ->
  (Z.abs t <= T)%Z -> finite64 v -> finite64 d -> 0 <= R64 d ->
  (Rabs (R64 v) + R64 d) * (1 + u) <= M ->
  let a := f64_add (f64_mul s (f64_of_Z t)) b in
  let line := f + R64 s * IZR (t - t0) in
  (if f64_lt (f64_add a d) v then line <= R64 v - R64 d + comparison_error s
   else R64 v - R64 d - comparison_error s <= line)
  /\ (if f64_lt v (f64_sub a d) then R64 v + R64 d - comparison_error s <= line
      else line <= R64 v + R64 d + comparison_error s).
Proof.
  intros f D s b t v d HD Hf (Hsf & Hbf & HsD & Hline) Ht Hvf Hdf Hd Hv a line.
  pose proof u_small as Hu. pose proof tiny_pos as Htp. pose proof tiny_small as Hts.
  pose proof large_room as [Hlarge Hb]. pose proof T_bounds as HTb.
  destruct (slope_small D (R64 s) HD HsD) as (_ & Hs2 & HsT).
  destruct (Hline t Ht) as [Hpf Hp]. clear Hline. fold line in Hp.
  assert (HuM : 0 <= u * M) by (apply Rmult_le_pos; lra).
  assert (HuMs : u * M <= / 1000000 * M) by (apply Rmult_le_compat_r; lra).
  assert (HX : 0 <= Rabs (R64 s) * IZR T) by (apply Rmult_le_pos; [apply Rabs_pos|lra]).
  assert (HuX : u * (Rabs (R64 s) * IZR T) <= 1 * (Rabs (R64 s) * IZR T))
    by (apply Rmult_le_compat_r; lra).
  assert (Hvd : Rabs (R64 v) + R64 d <= M).
  { pose proof (Rabs_pos (R64 v)).
    assert ((Rabs (R64 v) + R64 d) * 1 <= (Rabs (R64 v) + R64 d) * (1 + u))
      by (apply Rmult_le_compat_l; lra). lra. }
  set (p := f64_mul s (f64_of_Z t)) in *.
  assert (Hl : Rabs line <= M + 2 * (Rabs (R64 s) * IZR T)).
  { unfold line. eapply Rle_trans; [apply Rabs_triang|]. rewrite Rabs_mult.
    assert (Rabs (IZR (t - t0)) <= 2 * IZR T).
    { rewrite <- abs_IZR, <- mult_IZR. apply IZR_le. lia. }
    assert (Rabs (R64 s) * Rabs (IZR (t - t0)) <= Rabs (R64 s) * (2 * IZR T))
      by (apply Rmult_le_compat_l; [apply Rabs_pos|lra]).
    lra. }
  assert (Hpb : Rabs (R64 p + R64 b) <= 100 * bpow radix2 200 * 4503599627370496).
  { replace (R64 p + R64 b) with ((R64 p + R64 b - line) + line) by ring.
    eapply Rle_trans; [apply Rabs_triang|]. lra. }
  destruct (add_near p b Hpf Hbf) as [Haf Har]; [lra|]. fold a in Haf, Har.
  assert (Ha : Rabs (R64 a) <= 200 * bpow radix2 200 * 4503599627370496).
  { replace (R64 a) with ((R64 a - (R64 p + R64 b)) + (R64 p + R64 b)) by ring.
    eapply Rle_trans; [apply Rabs_triang|].
    assert (u * Rabs (R64 p + R64 b) <= 1 * Rabs (R64 p + R64 b))
      by (apply Rmult_le_compat_r; [apply Rabs_pos|lra]). lra. }
  assert (HdM : Rabs (R64 d) <= M) by (rewrite Rabs_pos_eq by lra; pose proof (Rabs_pos (R64 v)); lra).
  assert (HvM : Rabs (R64 v) <= M) by lra.
  destruct (add_near a d Haf Hdf) as [H1f H1r].
  { eapply Rle_trans; [apply Rabs_triang|]. lra. }
  destruct (sub_near a d Haf Hdf) as [H2f H2r].
  { unfold Rminus. eapply Rle_trans; [apply Rabs_triang|]. rewrite Rabs_Ropp. lra. }
  apply Rabs_le_inv in Hp.
  pose proof (Rabs_le_inv _ _ HvM) as HvM'.
  assert (Hlo : - M <= R64 v - R64 d /\ R64 v + R64 d <= M).
  { pose proof (Rle_abs (R64 v)) as A1. pose proof (Rle_abs (- R64 v)) as A2. rewrite Rabs_Ropp in A2. lra. }
  unfold comparison_error. split.
  - destruct (f64_lt (f64_add a d) v) eqn:E.
    + apply f64_lt_iff in E; auto. apply Rlt_le in E.
      pose proof (rounded_le _ _ _ _ H1r E HvM) as E1.
      assert (E2 : R64 a <= R64 v - R64 d + 2 * u * M) by lra.
      pose proof (rounded_le _ _ _ (11 / 10 * M) Har E2 ltac:(apply Rabs_le; lra)) as E3.
      lra.
    + apply f64_lt_false in E; auto.
      pose proof (rounded_ge _ _ _ _ H1r E HvM) as E1.
      assert (E2 : R64 v - R64 d - 2 * u * M <= R64 a) by lra.
      pose proof (rounded_ge _ _ _ (11 / 10 * M) Har E2 ltac:(apply Rabs_le; lra)) as E3.
      lra.
  - destruct (f64_lt v (f64_sub a d)) eqn:E.
    + apply f64_lt_iff in E; auto. apply Rlt_le in E.
      pose proof (rounded_ge _ _ _ _ H2r E HvM) as E1.
      assert (E2 : R64 v + R64 d - 2 * u * M <= R64 a) by lra.
      pose proof (rounded_ge _ _ _ (11 / 10 * M) Har E2 ltac:(apply Rabs_le; lra)) as E3.
      lra.
    + apply f64_lt_false in E; auto.
      pose proof (rounded_le _ _ _ _ H2r E HvM) as E1.
      assert (E2 : R64 a <= R64 v + R64 d + 2 * u * M) by lra.
      pose proof (rounded_le _ _ _ (11 / 10 * M) Har E2 ltac:(apply Rabs_le; lra)) as E3.
      lra.
Qed.
End Lines.
