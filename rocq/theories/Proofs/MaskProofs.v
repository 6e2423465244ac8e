(** Lemmas about clearing the least significant bits of an f32. *)
From Coq Require Import ZArith Reals Psatz Lra Bool Lia List.
From Flocq Require Import Core IEEE754.BinarySingleNaN IEEE754.Binary IEEE754.Bits.
From Verif Require Import Model.Base Model.Float Model.ErrorBound Model.Bits Model.MacaqueV
  Spec.ErrorBoundSpec Proofs.FloatProofs Proofs.MacaqueVProofs.
Open Scope R_scope.

(** The parts of a bit pattern. *)
Definition sign_part (s : bool) : Z := if s then 256 else 0.
Definition bits_from (s : bool) (E M : Z) : Z := (sign_part s + E) * 2 ^ 23 + M.

Lemma bits_from_split : forall s E M, (0 <= M < 2 ^ 23)%Z -> (0 <= E < 2 ^ 8)%Z ->
  split_bits 23 8 (bits_from s E M) = (s, M, E).
Proof.
  intros s E M HM HE.
  assert (H : bits_from s E M = join_bits 23 8 s M E).
  { unfold bits_from, join_bits, sign_part. rewrite Z.shiftl_mul_pow2 by lia.
    change (2 ^ 8)%Z with 256%Z. destruct s; ring. }
  rewrite H. apply split_join_bits; try reflexivity; assumption.
Qed.

Lemma to_bits_parts : forall v, exists s E M, (0 <= M < 2 ^ 23)%Z /\ (0 <= E < 2 ^ 8)%Z
  /\ to_bits v = bits_from s E M.
Proof.
  intros v. pose proof (to_bits_range v) as Hr. unfold is_u32 in Hr.
  set (z := to_bits v) in *. clearbody z.
  exists (2 ^ 31 <=? z)%Z, ((z / 2 ^ 23) mod 2 ^ 8)%Z, (z mod 2 ^ 23)%Z.
  split; [apply Z.mod_pos_bound; lia|]. split; [apply Z.mod_pos_bound; lia|].
  unfold bits_from, sign_part.
  pose proof (Z.div_mod z (2 ^ 23) ltac:(lia)).
  pose proof (Z.div_mod (z / 2 ^ 23) (2 ^ 8) ltac:(lia)).
  rewrite Z.div_div in H0 by lia. change (2 ^ 23 * 2 ^ 8)%Z with (2 ^ 31)%Z in H0.
  assert (z / 2 ^ 31 = if (2 ^ 31 <=? z) then 1 else 0)%Z.
  { destruct (Z.leb_spec (2 ^ 31) z).
    - symmetry. apply Z.div_unique with (z - 2 ^ 31)%Z; lia.
    - apply Z.div_small. lia. }
  destruct (2 ^ 31 <=? z)%Z; rewrite H1 in H0; lia.
Qed.

(** The number a bit pattern denotes. *)
Definition magnitude (E M : Z) : R :=
  if (E =? 0)%Z then F2R (Float radix2 M (-149)) else F2R (Float radix2 (M + 2 ^ 23) (E - 150)).
Definition signed (s : bool) (r : R) : R := if s then - r else r.

Lemma from_bits_R : forall s E M, (0 <= M < 2 ^ 23)%Z -> (0 <= E < 255)%Z ->
  finite32 (from_bits (bits_from s E M)) /\
  R32 (from_bits (bits_from s E M)) = signed s (magnitude E M).
Proof.
  intros s E M HM HE.
  pose proof (bits_from_split s E M HM ltac:(lia)) as Hs.
  unfold finite32, R32, from_bits, b32_of_bits, binary_float_of_bits.
  rewrite is_finite_FF2B, B2R_FF2B.
  unfold binary_float_of_bits_aux. rewrite Hs. unfold magnitude.
  case (Zeq_bool_spec E 0); intros HE0.
  - subst E. rewrite Z.eqb_refl. destruct M as [|p|p]; [| |lia].
    + split; [reflexivity|]. cbn [FF2R]. unfold F2R, signed. cbn [Fnum Fexp].
      destruct s; ring.
    + split; [reflexivity|]. cbn [FF2R]. unfold signed.
      change (SpecFloat.emin (23 + 1) (2 ^ (8 - 1))) with (-149)%Z.
      destruct s; cbn [cond_Zopp]; [|reflexivity].
      rewrite <- F2R_Zopp. reflexivity.
  - destruct (Z.eqb_spec E 0) as [|_]; [lia|].
    case (Zeq_bool_spec E (2 ^ 8 - 1)); intros HE1; [exfalso; lia|].
    destruct (M + 2 ^ 23)%Z as [|p|p] eqn:Ep; try lia.
    split; [reflexivity|]. cbn [FF2R].
    change (SpecFloat.emin (23 + 1) (2 ^ (8 - 1))) with (-149)%Z.
    replace (E + -149 - 1)%Z with (E - 150)%Z by lia.
    unfold signed. destruct s; cbn [cond_Zopp]; [|reflexivity].
    rewrite <- F2R_Zopp. reflexivity.
Qed.

Lemma from_bits_special : forall s M, (0 <= M < 2 ^ 23)%Z ->
  ~ finite32 (from_bits (bits_from s 255 M)).
Proof.
  intros s M HM.
  pose proof (bits_from_split s 255 M HM ltac:(lia)) as Hs.
  unfold finite32, from_bits, b32_of_bits, binary_float_of_bits.
  rewrite is_finite_FF2B. unfold binary_float_of_bits_aux. rewrite Hs.
  case (Zeq_bool_spec 255 0); intros HE0; [lia|].
  case (Zeq_bool_spec 255 (2 ^ 8 - 1)); intros HE1; [|exfalso; lia].
  destruct M; cbn; try discriminate.
Qed.

Lemma finite_parts : forall v, finite32 v -> exists s E M,
  (0 <= M < 2 ^ 23)%Z /\ (0 <= E < 255)%Z /\ to_bits v = bits_from s E M
  /\ R32 v = signed s (magnitude E M).
Proof.
  intros v Hv. destruct (to_bits_parts v) as (s & E & M & HM & HE & H).
  assert (Hvb : v = from_bits (bits_from s E M)) by (rewrite <- H; symmetry; apply from_to_bits).
  destruct (Z.eq_dec E 255) as [->|Hne].
  - exfalso. apply (from_bits_special s M HM). rewrite <- Hvb. exact Hv.
  - exists s, E, M. assert (HE' : (0 <= E < 255)%Z) by lia.
    repeat split; try lia; try assumption. rewrite Hvb. now apply from_bits_R.
Qed.

(** ** Masking *)
Lemma rewrite_bits : forall z p, is_u32 z ->
  rewrite_bits_by_n z p = (z - z mod 2 ^ (p mod 32))%Z.
Proof.
  intros z p Hz. unfold rewrite_bits_by_n, is_u32 in *. set (k := (p mod 32)%Z).
  assert (Hk : (0 <= k < 32)%Z) by (apply Z.mod_pos_bound; lia).
  pose proof (Z.div_mod z (2 ^ k) ltac:(apply Z.pow_nonzero; lia)).
  replace (z - z mod 2 ^ k)%Z with (Z.shiftl (Z.shiftr z k) k).
  2:{ rewrite Z.shiftl_mul_pow2, Z.shiftr_div_pow2 by lia. lia. }
  apply Z.bits_inj'. intros n Hn. rewrite Z.land_spec.
  unfold u32. change (2 ^ 32 - 1)%Z with (Z.ones 32).
  destruct (Z_lt_le_dec n 32) as [Hn32|Hn32].
  - rewrite Z.mod_pow2_bits_low by lia.
    destruct (Z_lt_le_dec n k).
    + rewrite !Z.shiftl_spec_low by lia. apply andb_false_r.
    + rewrite !Z.shiftl_spec by lia. rewrite Z.ones_spec_low by lia. rewrite Z.shiftr_spec by lia.
      rewrite andb_true_r. f_equal. lia.
  - rewrite Z.mod_pow2_bits_high by lia. rewrite andb_false_r.
    rewrite Z.shiftl_spec by lia. rewrite Z.shiftr_spec by lia. symmetry.
    replace (n - k + k)%Z with n by lia.
    destruct (Z.eq_dec z 0) as [->|]; [apply Z.bits_0|].
    apply Z.bits_above_log2; [lia|]. apply Z.log2_lt_pow2; try lia.
    apply Z.lt_le_trans with (2 ^ 32)%Z; [lia|]. apply Z.pow_le_mono_r; lia.
Qed.

Lemma get_exponent_parts : forall v s E M, (0 <= M < 2 ^ 23)%Z -> (0 <= E < 2 ^ 8)%Z ->
  to_bits v = bits_from s E M -> get_exponent v = (E - 127)%Z.
Proof.
  intros v s E M HM HE H. unfold get_exponent. rewrite H.
  rewrite Z.shiftr_div_pow2 by lia. unfold bits_from.
  rewrite Z.div_add_l by lia. rewrite (Z.div_small M) by lia. rewrite Z.add_0_r.
  change 255%Z with (Z.ones 8). rewrite Z.land_ones by lia. f_equal.
  unfold sign_part. destruct s.
  - replace (256 + E)%Z with (E + 1 * 2 ^ 8)%Z by lia. rewrite Z.mod_add by lia.
    apply Z.mod_small. lia.
  - apply Z.mod_small. lia.
Qed.

Lemma mod_sub_parts : forall a b d, (0 < d)%Z -> (a * d + b - (a * d + b) mod d = a * d + (b - b mod d))%Z.
Proof.
  intros a b d Hd. rewrite Z.add_comm at 2. rewrite Z.mod_add by lia. lia.
Qed.

(** Clearing at most 23 bits changes only the mantissa. *)
Lemma mask_mantissa : forall s E M p, (0 <= M < 2 ^ 23)%Z -> (0 <= E < 255)%Z ->
  (0 <= p <= 23)%Z ->
  rewrite_bits_by_n (bits_from s E M) p = bits_from s E (M - M mod 2 ^ p).
Proof.
  intros s E M p HM HE Hp.
  rewrite rewrite_bits.
  2:{ unfold is_u32, bits_from, sign_part. destruct s; lia. }
  rewrite (Z.mod_small p) by lia. unfold bits_from.
  replace ((sign_part s + E) * 2 ^ 23)%Z with ((sign_part s + E) * 2 ^ (23 - p) * 2 ^ p)%Z.
  2:{ rewrite <- Z.mul_assoc, <- Z.pow_add_r by lia. do 2 f_equal. lia. }
  apply mod_sub_parts. apply Z.pow_pos_nonneg; lia.
Qed.

(** Clearing more bits also clears bits of the exponent. *)
Lemma mask_exponent : forall s E M p, (0 <= M < 2 ^ 23)%Z -> (0 <= E < 255)%Z ->
  (23 <= p <= 31)%Z ->
  exists E', (0 <= E' <= E)%Z /\ rewrite_bits_by_n (bits_from s E M) p = bits_from s E' 0.
Proof.
  intros s E M p HM HE Hp.
  exists (E - E mod 2 ^ (p - 23))%Z. split.
  { pose proof (Z.mod_pos_bound E (2 ^ (p - 23)) ltac:(apply Z.pow_pos_nonneg; lia)).
    pose proof (Z.mod_le E (2 ^ (p - 23)) ltac:(lia) ltac:(apply Z.pow_pos_nonneg; lia)). lia. }
  rewrite rewrite_bits.
  2:{ unfold is_u32, bits_from, sign_part. destruct s; lia. }
  rewrite (Z.mod_small p) by lia. unfold bits_from.
  replace (2 ^ p)%Z with (2 ^ 23 * 2 ^ (p - 23))%Z.
  2:{ rewrite <- Z.pow_add_r by lia. f_equal. lia. }
  set (d := (2 ^ (p - 23))%Z). assert (Hd : (0 < d)%Z) by (apply Z.pow_pos_nonneg; lia).
  rewrite Z.rem_mul_r by lia.
  replace (((sign_part s + E) * 2 ^ 23 + M) mod 2 ^ 23)%Z with M.
  2:{ rewrite Z.add_comm, Z.mod_add by lia. symmetry. apply Z.mod_small. lia. }
  replace (((sign_part s + E) * 2 ^ 23 + M) / 2 ^ 23)%Z with (sign_part s + E)%Z.
  2:{ rewrite Z.div_add_l by lia. rewrite (Z.div_small M) by lia. lia. }
  replace ((sign_part s + E) mod d)%Z with (E mod d)%Z.
  2:{ unfold sign_part. destruct s; [|reflexivity].
      replace (256 + E)%Z with (E + 2 ^ (31 - p) * d)%Z.
      - rewrite Z.mod_add by lia. reflexivity.
      - unfold d. rewrite <- Z.pow_add_r by lia. replace (31 - p + (p - 23))%Z with 8%Z by lia. lia. }
  lia.
Qed.

Lemma magnitude_pos : forall E M, (0 <= M < 2 ^ 23)%Z -> (0 <= E < 255)%Z -> 0 <= magnitude E M.
Proof.
  intros E M HM HE. unfold magnitude. destruct (E =? 0)%Z; apply F2R_ge_0; cbn [Fnum]; lia.
Qed.

Lemma magnitude_normal : forall E M, (0 <= M < 2 ^ 23)%Z -> (1 <= E < 255)%Z ->
  bpow radix2 (E - 127) <= magnitude E M < bpow radix2 (E - 126).
Proof.
  intros E M HM HE. unfold magnitude. destruct (Z.eqb_spec E 0); [lia|].
  unfold F2R. cbn [Fnum Fexp].
  replace (E - 127)%Z with (23 + (E - 150))%Z by lia.
  replace (E - 126)%Z with (24 + (E - 150))%Z by lia. rewrite !bpow_plus.
  pose proof (bpow_gt_0 radix2 (E - 150)).
  change (bpow radix2 23) with (IZR (2 ^ 23)). change (bpow radix2 24) with (IZR (2 ^ 24)).
  split.
  - apply Rmult_le_compat_r; [lra|]. apply IZR_le. lia.
  - apply Rmult_lt_compat_r; [lra|]. apply IZR_lt. lia.
Qed.

Lemma magnitude_subnormal : forall M, (0 <= M < 2 ^ 23)%Z -> magnitude 0 M < bpow radix2 (-126).
Proof.
  intros M HM. unfold magnitude. cbn [Z.eqb]. unfold F2R. cbn [Fnum Fexp].
  replace (-126)%Z with (23 + -149)%Z by lia. rewrite bpow_plus.
  apply Rmult_lt_compat_r; [apply bpow_gt_0|]. change (bpow radix2 23) with (IZR (2 ^ 23)).
  apply IZR_lt. lia.
Qed.

Lemma magnitude_masked_le : forall E E' M, (0 <= M < 2 ^ 23)%Z -> (0 <= E' <= E)%Z -> (E < 255)%Z ->
  magnitude E' 0 <= magnitude E M.
Proof.
  intros E E' M HM HE' HE.
  destruct (Z.eq_dec E' 0) as [->|Hne].
  - unfold magnitude at 1. cbn [Z.eqb]. rewrite F2R_0. apply magnitude_pos; lia.
  - apply Rle_trans with (bpow radix2 (E - 127)).
    + unfold magnitude. destruct (Z.eqb_spec E' 0); [lia|]. unfold F2R. cbn [Fnum Fexp].
      rewrite Z.add_0_l. change (IZR (2 ^ 23)) with (bpow radix2 23). rewrite <- bpow_plus.
      apply bpow_le. lia.
    + apply magnitude_normal; lia.
Qed.

Lemma signed_minus : forall s a b, Rabs (signed s a - signed s b) = Rabs (a - b).
Proof.
  intros [] a b; unfold signed; [|reflexivity].
  replace (- a - - b) with (- (a - b)) by ring. apply Rabs_Ropp.
Qed.
Lemma signed_abs : forall s a, Rabs (signed s a) = Rabs a.
Proof. intros [] a; unfold signed; [apply Rabs_Ropp | reflexivity]. Qed.

(** Clearing bits never moves a finite value further than to zero. *)
Lemma mask_shrinks : forall v p, finite32 v ->
  let w := from_bits (rewrite_bits_by_n (to_bits v) p) in
  finite32 w /\ Rabs (R32 v - R32 w) <= Rabs (R32 v).
Proof.
  intros v p Hv w.
  destruct (finite_parts v Hv) as (s & E & M & HM & HE & Hb & Hr).
  assert (Hpm : rewrite_bits_by_n (to_bits v) p = rewrite_bits_by_n (to_bits v) (p mod 32)).
  { unfold rewrite_bits_by_n. now rewrite Z.mod_mod by lia. }
  unfold w. rewrite Hpm, Hb, Hr.
  pose proof (Z.mod_pos_bound p 32 ltac:(lia)). set (k := (p mod 32)%Z) in *.
  assert (Hcase : exists E' M', (0 <= M' < 2 ^ 23)%Z /\ (0 <= E' < 255)%Z
            /\ rewrite_bits_by_n (bits_from s E M) k = bits_from s E' M'
            /\ 0 <= magnitude E' M' <= magnitude E M).
  { destruct (Z_le_gt_dec k 23).
    - exists E, (M - M mod 2 ^ k)%Z.
      assert (HM' : (0 <= M - M mod 2 ^ k <= M)%Z).
      { pose proof (Z.mod_pos_bound M (2 ^ k) ltac:(apply Z.pow_pos_nonneg; lia)).
        pose proof (Z.mod_le M (2 ^ k) ltac:(lia) ltac:(apply Z.pow_pos_nonneg; lia)). lia. }
      split; [lia|]. split; [lia|]. split; [apply mask_mantissa; lia|].
      split; [apply magnitude_pos; lia|].
      unfold magnitude. destruct (E =? 0)%Z; apply F2R_le; lia.
    - destruct (mask_exponent s E M k HM HE ltac:(lia)) as (E' & HE' & Hm).
      exists E', 0%Z. split; [lia|]. split; [lia|]. split; [exact Hm|].
      split; [apply magnitude_pos; lia|]. apply magnitude_masked_le; lia. }
  destruct Hcase as (E' & M' & HM' & HE' & Hm & Hlo & Hhi).
  rewrite Hm. destruct (from_bits_R s E' M' HM' HE') as [Hf Hfr].
  split; [exact Hf|]. rewrite Hfr, signed_minus, signed_abs.
  rewrite !Rabs_pos_eq by lra. lra.
Qed.

(** Clearing [p] mantissa bits of a normal value changes it by less than [2^p] units. *)
Lemma mask_error : forall v p, finite32 v -> bpow radix2 (-126) <= Rabs (R32 v) ->
  (0 <= p <= 23)%Z ->
  let w := from_bits (rewrite_bits_by_n (to_bits v) p) in
  (-126 <= get_exponent v <= 127)%Z
  /\ bpow radix2 (get_exponent v) <= Rabs (R32 v) < bpow radix2 (get_exponent v + 1)
  /\ finite32 w /\ Rabs (R32 v - R32 w) < bpow radix2 (get_exponent v - 23 + p)
  /\ (p = 0%Z -> w = v).
Proof.
  intros v p Hv Hn Hp w.
  destruct (finite_parts v Hv) as (s & E & M & HM & HE & Hb & Hr).
  rewrite (get_exponent_parts v s E M HM ltac:(lia) Hb).
  assert (HE1 : (1 <= E)%Z).
  { destruct (Z.eq_dec E 0) as [->|]; [|lia]. exfalso.
    rewrite Hr, signed_abs, Rabs_pos_eq in Hn by (apply magnitude_pos; lia).
    pose proof (magnitude_subnormal M HM). lra. }
  pose proof (magnitude_normal E M HM ltac:(lia)) as Hmag.
  split; [lia|]. split.
  { rewrite Hr, signed_abs, Rabs_pos_eq by (apply magnitude_pos; lia).
    replace (E - 127 + 1)%Z with (E - 126)%Z by lia. exact Hmag. }
  unfold w. rewrite Hb, (mask_mantissa s E M p HM HE Hp).
  assert (HM' : (0 <= M - M mod 2 ^ p <= M)%Z).
  { pose proof (Z.mod_pos_bound M (2 ^ p) ltac:(apply Z.pow_pos_nonneg; lia)).
    pose proof (Z.mod_le M (2 ^ p) ltac:(lia) ltac:(apply Z.pow_pos_nonneg; lia)). lia. }
  destruct (from_bits_R s E (M - M mod 2 ^ p) ltac:(lia) HE) as [Hf Hfr].
  split; [exact Hf|]. split.
  - rewrite Hfr, Hr, signed_minus. unfold magnitude. destruct (Z.eqb_spec E 0); [lia|].
    unfold F2R. cbn [Fnum Fexp]. rewrite <- Rmult_minus_distr_r, <- minus_IZR.
    replace (M + 2 ^ 23 - (M - M mod 2 ^ p + 2 ^ 23))%Z with (M mod 2 ^ p)%Z by lia.
    pose proof (Z.mod_pos_bound M (2 ^ p) ltac:(apply Z.pow_pos_nonneg; lia)) as Hb2.
    rewrite Rabs_pos_eq.
    2:{ apply Rmult_le_pos; [apply IZR_le; lia | apply bpow_ge_0]. }
    replace (E - 127 - 23 + p)%Z with (p + (E - 150))%Z by lia. rewrite bpow_plus.
    apply Rmult_lt_compat_r; [apply bpow_gt_0|].
    rewrite <- (IZR_Zpower radix2 p) by lia. apply IZR_lt. exact (proj2 Hb2).
  - intros ->. change (2 ^ 0)%Z with 1%Z. rewrite Z.mod_1_r, Z.sub_0_r.
    rewrite <- Hb. apply from_to_bits.
Qed.
