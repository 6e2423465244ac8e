(** Lemmas about the floating point model: what its operations mean on real numbers. *)
From Coq Require Import ZArith Reals Psatz Lra Bool Lia.
From Flocq Require Import Core IEEE754.BinarySingleNaN IEEE754.Binary IEEE754.Bits
  Relative Plus_error.
From Verif Require Import Model.Base Model.Float Model.ErrorBound Spec.ErrorBoundSpec.
Open Scope R_scope.

Notation fexp32 := (FLT_exp (-149) 24).
Notation fexp64 := (FLT_exp (-1074) 53).
Definition rnd32 (x : R) : R := round radix2 fexp32 ZnearestE x.
Definition rnd64 (x : R) : R := round radix2 fexp64 ZnearestE x.

Global Instance prec24 : Prec_gt_0 24 := eq_refl.
Global Instance prec53 : Prec_gt_0 53 := eq_refl.

Lemma format32 : forall x, generic_format radix2 fexp32 (R32 x).
Proof. intros x. exact (generic_format_B2R 24 128 x). Qed.
Lemma format64 : forall x, generic_format radix2 fexp64 (R64 x).
Proof. intros x. exact (generic_format_B2R 53 1024 x). Qed.

Lemma R32_lt_max : forall x, Rabs (R32 x) < bpow radix2 128.
Proof. intros x. exact (abs_B2R_lt_emax 24 128 x). Qed.
Lemma R64_lt_max : forall x, Rabs (R64 x) < bpow radix2 1024.
Proof. intros x. exact (abs_B2R_lt_emax 53 1024 x). Qed.

Lemma rnd32_le : forall x y, x <= y -> rnd32 x <= rnd32 y.
Proof. intros. unfold rnd32. apply round_le; auto; typeclasses eauto. Qed.
Lemma rnd32_id : forall x, rnd32 (R32 x) = R32 x.
Proof. intros. unfold rnd32. apply round_generic; [typeclasses eauto | apply format32]. Qed.
Lemma rnd32_opp : forall x, rnd32 (- x) = - rnd32 x.
Proof. intros. unfold rnd32. apply round_NE_opp. Qed.
Lemma rnd32_abs : forall x, rnd32 (Rabs x) = Rabs (rnd32 x).
Proof. intros. unfold rnd32. apply round_NE_abs. typeclasses eauto. Qed.
Lemma rnd32_0 : rnd32 0 = 0.
Proof. unfold rnd32. apply round_0. typeclasses eauto. Qed.
Lemma rnd64_le : forall x y, x <= y -> rnd64 x <= rnd64 y.
Proof. intros. unfold rnd64. apply round_le; auto; typeclasses eauto. Qed.
Lemma rnd64_id : forall x, rnd64 (R64 x) = R64 x.
Proof. intros. unfold rnd64. apply round_generic; [typeclasses eauto | apply format64]. Qed.
Lemma rnd64_0 : rnd64 0 = 0.
Proof. unfold rnd64. apply round_0. typeclasses eauto. Qed.

(** f32 numbers are f64 numbers. *)
Lemma format32_64 : forall r, generic_format radix2 fexp32 r -> generic_format radix2 fexp64 r.
Proof.
  intros r. apply generic_inclusion_mag. intros _.
  unfold FLT_exp. lia.
Qed.

(** Case analysis on floats by kind. *)
Lemma finite_or_not : forall x : f32,
  finite32 x \/ f32_is_infinite x = true \/ f32_is_nan x = true.
Proof. intros [s|s|s pl H|s m e H]; cbn; auto. left; reflexivity. left; reflexivity. Qed.

(** ** Conversions *)
Lemma f64_of_f32_finite : forall x, finite32 x ->
  finite64 (f64_of_f32 x) /\ R64 (f64_of_f32 x) = R32 x.
Proof.
  intros [s|s|s pl Hpl|s m e Hme] Hf; try discriminate; [split; reflexivity|].
  unfold f64_of_f32.
  generalize (binary_normalize_correct 53 1024 eq_refl eq_refl mode_NE
                (cond_Zopp s (Zpos m)) e s).
  assert (Hfmt : round radix2 fexp64 ZnearestE (F2R (Float radix2 (cond_Zopp s (Zpos m)) e))
                 = F2R (Float radix2 (cond_Zopp s (Zpos m)) e)).
  { apply round_generic; [typeclasses eauto|].
    apply format32_64. exact (format32 (B754_finite 24 128 s m e Hme)). }
  change (SpecFloat.fexp 53 1024) with fexp64.
  change (round_mode mode_NE) with ZnearestE. rewrite Hfmt.
  rewrite Rlt_bool_true.
  - intros (Hr & Hfin & _). split; [exact Hfin | exact Hr].
  - apply Rlt_trans with (bpow radix2 128).
    + exact (R32_lt_max (B754_finite 24 128 s m e Hme)).
    + now apply bpow_lt.
Qed.

Lemma f64_of_f32_nan : forall x, f64_is_nan (f64_of_f32 x) = f32_is_nan x.
Proof.
  intros [s|s|s pl Hpl|s m e Hme]; try reflexivity.
  destruct (f64_of_f32_finite (B754_finite 24 128 s m e Hme) eq_refl) as [Hf _].
  cbn [f32_is_nan is_nan]. unfold f64_is_nan.
  revert Hf. unfold finite64.
  destruct (f64_of_f32 _); try reflexivity; discriminate.
Qed.

(** ** Comparisons *)
Lemma f32_le_iff : forall x y, finite32 x -> finite32 y ->
  (f32_le x y = true <-> R32 x <= R32 y).
Proof.
  intros x y Hx Hy. unfold f32_le, b32_compare.
  rewrite (Bcompare_correct 24 128 x y Hx Hy). fold (R32 x) (R32 y).
  destruct (Rcompare_spec (R32 x) (R32 y)) as [H|H|H]; split; intros; try lra; easy.
Qed.
Lemma f32_lt_iff : forall x y, finite32 x -> finite32 y ->
  (f32_lt x y = true <-> R32 x < R32 y).
Proof.
  intros x y Hx Hy. unfold f32_lt, b32_compare.
  rewrite (Bcompare_correct 24 128 x y Hx Hy). fold (R32 x) (R32 y).
  destruct (Rcompare_spec (R32 x) (R32 y)) as [H|H|H]; split; intros; try lra; easy.
Qed.
Lemma f32_eq_iff : forall x y, finite32 x -> finite32 y ->
  (f32_eq x y = true <-> R32 x = R32 y).
Proof.
  intros x y Hx Hy. unfold f32_eq, b32_compare.
  rewrite (Bcompare_correct 24 128 x y Hx Hy). fold (R32 x) (R32 y).
  destruct (Rcompare_spec (R32 x) (R32 y)) as [H|H|H]; split; intros; try lra; easy.
Qed.
Lemma f64_eq_iff : forall x y, finite64 x -> finite64 y ->
  (f64_eq x y = true <-> R64 x = R64 y).
Proof.
  intros x y Hx Hy. unfold f64_eq, b64_compare.
  rewrite (Bcompare_correct 53 1024 x y Hx Hy). fold (R64 x) (R64 y).
  destruct (Rcompare_spec (R64 x) (R64 y)) as [H|H|H]; split; intros; try lra; easy.
Qed.
Lemma f64_lt_iff : forall x y, finite64 x -> finite64 y ->
  (f64_lt x y = true <-> R64 x < R64 y).
Proof.
  intros x y Hx Hy. unfold f64_lt, b64_compare.
  rewrite (Bcompare_correct 53 1024 x y Hx Hy). fold (R64 x) (R64 y).
  destruct (Rcompare_spec (R64 x) (R64 y)) as [H|H|H]; split; intros; try lra; easy.
Qed.

(** [abs x <= e] with finite [e] only holds for finite [x]. *)
Lemma f32_abs_le_iff : forall x e, finite32 e ->
  (f32_le (f32_abs x) e = true <-> finite32 x /\ Rabs (R32 x) <= R32 e).
Proof.
  intros x e He.
  destruct (finite_or_not x) as [Hx|[Hx|Hx]].
  - assert (Hax : finite32 (f32_abs x)).
    { unfold finite32, f32_abs, b32_abs. rewrite is_finite_Babs. exact Hx. }
    rewrite (f32_le_iff _ _ Hax He).
    unfold R32 at 1, f32_abs, b32_abs. rewrite B2R_Babs. fold (R32 x). tauto.
  - destruct x; try discriminate. destruct e; try discriminate;
      (split; [cbn; intros H; discriminate H | intros [H _]; discriminate H]).
  - destruct x; try discriminate. destruct e; try discriminate;
      (split; [cbn; intros H; discriminate H | intros [H _]; discriminate H]).
Qed.

(** ** Arithmetic *)
Lemma f32_sub_correct : forall x y, finite32 x -> finite32 y ->
  (Rabs (rnd32 (R32 x - R32 y)) < bpow radix2 128 ->
     finite32 (f32_sub x y) /\ R32 (f32_sub x y) = rnd32 (R32 x - R32 y))
  /\ (finite32 (f32_sub x y) ->
      Rabs (rnd32 (R32 x - R32 y)) < bpow radix2 128
      /\ R32 (f32_sub x y) = rnd32 (R32 x - R32 y)).
Proof.
  intros x y Hx Hy.
  generalize (Bminus_correct 24 128 eq_refl eq_refl binop_nan_pl32 mode_NE x y Hx Hy).
  fold (R32 x) (R32 y).
  change (Bminus 24 128 eq_refl eq_refl binop_nan_pl32 mode_NE x y) with (f32_sub x y).
  change (round radix2 (SpecFloat.fexp 24 128) (round_mode mode_NE) (R32 x - R32 y))
    with (rnd32 (R32 x - R32 y)).
  case Rlt_bool_spec; intros H.
  - intros (Hr & Hf & _). split; auto.
  - intros (Hr & _). split; [intros; lra|]. intros Hf. exfalso.
    unfold finite32 in Hf. destruct (f32_sub x y); try discriminate.
Qed.

Lemma f32_div_correct : forall x y, finite32 x -> R32 y <> 0 ->
  (Rabs (rnd32 (R32 x / R32 y)) < bpow radix2 128 ->
     finite32 (f32_div x y) /\ R32 (f32_div x y) = rnd32 (R32 x / R32 y))
  /\ (finite32 (f32_div x y) ->
      Rabs (rnd32 (R32 x / R32 y)) < bpow radix2 128
      /\ R32 (f32_div x y) = rnd32 (R32 x / R32 y)).
Proof.
  intros x y Hx Hy.
  generalize (Bdiv_correct 24 128 eq_refl eq_refl binop_nan_pl32 mode_NE x y Hy).
  fold (R32 x) (R32 y).
  change (Bdiv 24 128 eq_refl eq_refl binop_nan_pl32 mode_NE x y) with (f32_div x y).
  change (round radix2 (SpecFloat.fexp 24 128) (round_mode mode_NE) (R32 x / R32 y))
    with (rnd32 (R32 x / R32 y)).
  case Rlt_bool_spec; intros H.
  - intros (Hr & Hf & _). rewrite Hx in Hf. split; auto.
  - intros Hr. split; [intros; lra|]. intros Hf. exfalso.
    unfold finite32 in Hf. destruct (f32_div x y); try discriminate.
Qed.

Lemma f32_mul_correct : forall x y, finite32 x -> finite32 y ->
  (Rabs (rnd32 (R32 x * R32 y)) < bpow radix2 128 ->
     finite32 (f32_mul x y) /\ R32 (f32_mul x y) = rnd32 (R32 x * R32 y))
  /\ (finite32 (f32_mul x y) ->
      Rabs (rnd32 (R32 x * R32 y)) < bpow radix2 128
      /\ R32 (f32_mul x y) = rnd32 (R32 x * R32 y)).
Proof.
  intros x y Hx Hy.
  generalize (Bmult_correct 24 128 eq_refl eq_refl binop_nan_pl32 mode_NE x y).
  fold (R32 x) (R32 y).
  change (Bmult 24 128 eq_refl eq_refl binop_nan_pl32 mode_NE x y) with (f32_mul x y).
  change (round radix2 (SpecFloat.fexp 24 128) (round_mode mode_NE) (R32 x * R32 y))
    with (rnd32 (R32 x * R32 y)).
  case Rlt_bool_spec; intros H.
  - intros (Hr & Hf & _). rewrite Hx, Hy in Hf. split; auto.
  - intros Hr. split; [intros; lra|]. intros Hf. exfalso.
    unfold finite32 in Hf. destruct (f32_mul x y); try discriminate.
Qed.

(** Only finite operands give a finite difference or product. *)
Lemma f32_sub_finite : forall x y, finite32 (f32_sub x y) -> finite32 x /\ finite32 y.
Proof.
  intros x y H. unfold finite32 in *.
  destruct x as [s|s|s pl Hpl|s m e Hme], y as [t|t|t ql Hql|t n f Hnf]; try (split; reflexivity);
    exfalso; revert H; try (cbn; discriminate);
    try (destruct s, t; cbn; discriminate).
Qed.
Lemma f32_mul_finite_l : forall x y, finite32 (f32_mul x y) -> finite32 x.
Proof.
  intros x y H. unfold finite32 in *.
  destruct x as [s|s|s pl Hpl|s m e Hme], y as [t|t|t ql Hql|t n f Hnf]; try reflexivity;
    exfalso; revert H; try (cbn; discriminate);
    try (destruct s, t; cbn; discriminate).
Qed.
Lemma f32_div_finite_l : forall x y, finite32 (f32_div x y) -> finite32 x.
Proof.
  intros x y H. unfold finite32 in *.
  destruct x as [s|s|s pl Hpl|s m e Hme], y as [t|t|t ql Hql|t n f Hnf]; try reflexivity;
    exfalso; revert H; try (cbn; discriminate);
    try (destruct s, t; cbn; discriminate).
Qed.

(** Zero as a real means the zero float. *)
Lemma R32_zero : forall x, finite32 x -> R32 x = 0 -> exists s, x = B754_zero 24 128 s.
Proof.
  intros [s|s|s pl Hpl|s m e Hme] Hf H; try discriminate; [eauto|].
  exfalso. unfold R32, B2R in H. apply eq_0_F2R in H. destruct s; discriminate.
Qed.

(** ** Rounding errors *)
Definition u32r : R := / 16777216.
Lemma u32r_bpow : / 2 * bpow radix2 (-24 + 1) = u32r.
Proof.
  unfold u32r. change (bpow radix2 (-24 + 1)) with (/ 8388608). field.
Qed.

Lemma rnd32_error : forall x, bpow radix2 (-126) <= Rabs x ->
  Rabs (rnd32 x - x) <= u32r * Rabs x.
Proof.
  intros x Hx. rewrite <- u32r_bpow. unfold rnd32.
  apply (relative_error_N_FLT radix2 (-149) 24 eq_refl). exact Hx.
Qed.

Lemma sub_error : forall x y,
  Rabs (rnd32 (R32 x - R32 y) - (R32 x - R32 y)) <= u32r * Rabs (R32 x - R32 y).
Proof.
  intros x y.
  destruct (FLT_plus_error_N_ex radix2 (-149) 24 (fun n => negb (Z.even n)) (R32 x) (- R32 y))
    as (eps & He & Hr).
  - apply format32.
  - apply generic_format_opp, format32.
  - fold (rnd32 (R32 x + - R32 y)) in Hr. fold (R32 x - R32 y) in Hr. rewrite Hr.
    unfold Rminus.
    replace ((R32 x + - R32 y) * (1 + eps) + - (R32 x + - R32 y))
      with (eps * (R32 x + - R32 y)) by ring.
    rewrite Rabs_mult. apply Rmult_le_compat_r; [apply Rabs_pos|].
    eapply Rle_trans; [exact He|]. change (u_ro radix2 24) with (/ 2 * bpow radix2 (-24 + 1)).
    rewrite u32r_bpow. unfold u32r. lra.
Qed.

(** Distinct f32 numbers differ by a factor of at least 2^-25. *)
Lemma format32_gap_pos : forall x y,
  generic_format radix2 fexp32 x -> generic_format radix2 fexp32 y ->
  0 < x -> x <> y -> / 33554432 * x <= Rabs (x - y).
Proof.
  intros x y Fx Fy Hx Hne.
  assert (Hulp : forall z, 0 < z -> / 16777216 * z <= ulp radix2 fexp32 z).
  { intros z Hz. apply Rlt_le.
    assert (H : Rabs z * bpow radix2 (-24) < ulp radix2 fexp32 z)
      by exact (ulp_FLT_gt radix2 (-149) 24 z).
    rewrite Rabs_pos_eq in H by lra.
    replace (bpow radix2 (-24)) with (/ 16777216) in H; [lra|].
    cbn [bpow]. change (Z.pow_pos radix2 24) with 16777216%Z. reflexivity. }
  destruct (Rle_or_lt y 0) as [Hy0|Hy0].
  { rewrite Rabs_pos_eq by lra. lra. }
  destruct (Rtotal_order x y) as [H|[H|H]]; [|contradiction|].
  - assert (Hs : succ radix2 fexp32 x <= y) by (apply succ_le_lt; auto; typeclasses eauto).
    rewrite succ_eq_pos in Hs by lra.
    specialize (Hulp x Hx). rewrite Rabs_left by lra. lra.
  - assert (Hs : succ radix2 fexp32 y <= x) by (apply succ_le_lt; auto; typeclasses eauto).
    rewrite succ_eq_pos in Hs by lra.
    specialize (Hulp y Hy0). rewrite Rabs_pos_eq by lra.
    destruct (Rle_or_lt y (x / 2)); lra.
Qed.

Lemma format32_gap : forall x y,
  generic_format radix2 fexp32 x -> generic_format radix2 fexp32 y ->
  x <> y -> / 33554432 * Rabs x <= Rabs (x - y).
Proof.
  intros x y Fx Fy Hne.
  destruct (Rtotal_order x 0) as [H|[H|H]].
  - rewrite (Rabs_left x) by lra.
    replace (Rabs (x - y)) with (Rabs (- x - - y)).
    2:{ rewrite <- Rabs_Ropp. f_equal. ring. }
    apply format32_gap_pos; try lra; now apply generic_format_opp.
  - subst. rewrite Rabs_R0, Rmult_0_r. apply Rabs_pos.
  - rewrite (Rabs_pos_eq x) by lra. now apply format32_gap_pos.
Qed.

(** ** f64 *)
Lemma f64_mul_correct : forall x y, finite64 x -> finite64 y ->
  Rabs (rnd64 (R64 x * R64 y)) < bpow radix2 1024 ->
  finite64 (f64_mul x y) /\ R64 (f64_mul x y) = rnd64 (R64 x * R64 y).
Proof.
  intros x y Hx Hy H.
  generalize (Bmult_correct 53 1024 eq_refl eq_refl binop_nan_pl64 mode_NE x y).
  fold (R64 x) (R64 y).
  change (Bmult 53 1024 eq_refl eq_refl binop_nan_pl64 mode_NE x y) with (f64_mul x y).
  change (round radix2 (SpecFloat.fexp 53 1024) (round_mode mode_NE) (R64 x * R64 y))
    with (rnd64 (R64 x * R64 y)).
  rewrite Rlt_bool_true by exact H. intros (Hr & Hf & _). rewrite Hx, Hy in Hf. split; auto.
Qed.
Lemma f64_div_correct : forall x y, finite64 x -> R64 y <> 0 ->
  Rabs (rnd64 (R64 x / R64 y)) < bpow radix2 1024 ->
  finite64 (f64_div x y) /\ R64 (f64_div x y) = rnd64 (R64 x / R64 y).
Proof.
  intros x y Hx Hy H.
  generalize (Bdiv_correct 53 1024 eq_refl eq_refl binop_nan_pl64 mode_NE x y Hy).
  fold (R64 x) (R64 y).
  change (Bdiv 53 1024 eq_refl eq_refl binop_nan_pl64 mode_NE x y) with (f64_div x y).
  change (round radix2 (SpecFloat.fexp 53 1024) (round_mode mode_NE) (R64 x / R64 y))
    with (rnd64 (R64 x / R64 y)).
  rewrite Rlt_bool_true by exact H. intros (Hr & Hf & _). rewrite Hx in Hf. split; auto.
Qed.
Lemma f64_abs_correct : forall x, finite64 x ->
  finite64 (f64_abs x) /\ R64 (f64_abs x) = Rabs (R64 x).
Proof.
  intros x Hx. unfold finite64, R64, f64_abs, b64_abs. rewrite is_finite_Babs, B2R_Babs. auto.
Qed.

Lemma f32_of_f64_correct : forall x, finite64 x -> Rabs (rnd32 (R64 x)) < bpow radix2 128 ->
  finite32 (f32_of_f64 x) /\ R32 (f32_of_f64 x) = rnd32 (R64 x).
Proof.
  intros [s|s|s pl Hpl|s m e Hme] Hf H; try discriminate.
  - split; [reflexivity|]. change (R64 (B754_zero 53 1024 s)) with 0. rewrite rnd32_0. reflexivity.
  - unfold f32_of_f64.
    generalize (binary_normalize_correct 24 128 eq_refl eq_refl mode_NE
                  (cond_Zopp s (Zpos m)) e s).
    change (F2R {| Fnum := cond_Zopp s (Z.pos m); Fexp := e |})
      with (R64 (B754_finite 53 1024 s m e Hme)).
    change (round radix2 (SpecFloat.fexp 24 128) (round_mode mode_NE)
              (R64 (B754_finite 53 1024 s m e Hme)))
      with (rnd32 (R64 (B754_finite 53 1024 s m e Hme))).
    rewrite Rlt_bool_true by exact H. intros (Hr & Hfin & _). split; assumption.
Qed.

Definition u64r : R := / 9007199254740992.
Lemma rnd64_error : forall x, bpow radix2 (-1022) <= Rabs x ->
  Rabs (rnd64 x - x) <= u64r * Rabs x.
Proof.
  intros x Hx.
  replace u64r with (/ 2 * bpow radix2 (-53 + 1)).
  2:{ unfold u64r. change (bpow radix2 (-53 + 1)) with (/ 4503599627370496). field. }
  unfold rnd64. apply (relative_error_N_FLT radix2 (-1074) 53 eq_refl). exact Hx.
Qed.
