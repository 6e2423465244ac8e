From Coq Require Import ZArith List Bool Lia.
From Flocq Require Import IEEE754.Binary IEEE754.Bits.
From Verif Require Import Model.Base Model.Bits Model.Float Model.ErrorBound Model.MacaqueV.
From Verif Require Import Spec.BitsSpec Proofs.BitsProofs.
Import ListNotations.
Open Scope Z_scope.

(** * Bit patterns *)

Lemma to_bits_range v : is_u32 (to_bits v).
Proof. unfold is_u32, to_bits. apply (bits_of_binary_float_range 23 8); reflexivity. Qed.

Lemma from_to_bits v : from_bits (to_bits v) = v.
Proof. exact (binary_float_of_bits_of_binary_float 23 8 _ _ _ v). Qed.

Lemma to_from_bits z : is_u32 z -> to_bits (from_bits z) = z.
Proof. intros H. exact (bits_of_binary_float_of_bits 23 8 _ _ _ z H). Qed.

Lemma lxor_u32 a b : is_u32 a -> is_u32 b -> is_u32 (Z.lxor a b).
Proof.
  unfold is_u32. intros Ha Hb. split.
  - apply Z.lxor_nonneg. lia.
  - replace (Z.lxor a b) with (Z.lxor a b mod 2 ^ 32).
    + apply Z.mod_pos_bound. lia.
    + apply Z.bits_inj'. intros i Hi.
      destruct (Z.lt_ge_cases i 32).
      * apply Z.mod_pow2_bits_low. auto.
      * rewrite Z.mod_pow2_bits_high, Z.lxor_spec by lia.
        rewrite <- (Z.mod_small a (2 ^ 32)), <- (Z.mod_small b (2 ^ 32)) by lia.
        rewrite !Z.mod_pow2_bits_high by lia. reflexivity.
Qed.

Lemma trailing_zeros_spec x : 0 < x ->
  0 <= trailing_zeros x <= Z.log2 x /\ x mod 2 ^ trailing_zeros x = 0.
Proof.
  intros Hx. destruct x as [|p|p]; try lia. unfold trailing_zeros. clear Hx.
  induction p as [p IH|p IH|]; cbn [ctz_pos].
  - rewrite Z.pow_0_r, Z.mod_1_r. split; auto. split; [lia|apply Z.log2_nonneg].
  - destruct IH as [IH1 IH2]. rewrite Pos2Z.inj_xO.
    split.
    + rewrite Z.log2_double by lia. lia.
    + rewrite Z.pow_add_r, Z.pow_1_r by lia. rewrite Z.mul_mod_distr_l by lia.
      rewrite IH2. reflexivity.
  - rewrite Z.pow_0_r, Z.mod_1_r. simpl. lia.
Qed.

(** Shifting out zeros and shifting back. *)
Lemma shift_restore x t m : 0 <= t -> 0 <= m -> t + m <= 32 -> 0 <= x < 2 ^ (t + m) ->
  x mod 2 ^ t = 0 ->
  t <= 31 ->
  u32 (Z.shiftl (u32 (Z.shiftr x t mod 2 ^ m)) (t mod 32)) = x.
Proof.
  intros Ht Hm H32 Hx Hmod Ht31.
  rewrite (Z.mod_small t 32) by lia.
  assert (HP : 0 < 2 ^ t) by (apply Z.pow_pos_nonneg; lia).
  rewrite Z.pow_add_r in Hx by lia.
  rewrite Z.shiftr_div_pow2, Z.shiftl_mul_pow2 by lia.
  assert (Hq : 0 <= x / 2 ^ t < 2 ^ m).
  { split; [apply Z.div_pos; lia|]. apply Z.div_lt_upper_bound; lia. }
  assert (H2m : 2 ^ m <= 2 ^ 32) by (apply Z.pow_le_mono_r; lia).
  assert (H2tm : 2 ^ t * 2 ^ m <= 2 ^ 32).
  { rewrite <- Z.pow_add_r by lia. apply Z.pow_le_mono_r; lia. }
  rewrite (Z.mod_small (x / 2 ^ t)) by lia.
  unfold u32. rewrite (Z.mod_small (x / 2 ^ t)) by lia.
  assert (x / 2 ^ t * 2 ^ t = x).
  { pose proof (Z.div_mod x (2 ^ t)). lia. }
  rewrite H. apply Z.mod_small. lia.
Qed.

Lemma trailing_le x t : 0 < x -> 0 <= t <= trailing_zeros x -> x mod 2 ^ t = 0.
Proof.
  intros Hx Ht. destruct (trailing_zeros_spec x Hx) as [H1 H2].
  assert (HP : 0 < 2 ^ t) by (apply Z.pow_pos_nonneg; lia).
  assert (HQ : 0 < 2 ^ (trailing_zeros x - t)) by (apply Z.pow_pos_nonneg; lia).
  replace (trailing_zeros x) with (t + (trailing_zeros x - t)) in H2 by lia.
  rewrite Z.pow_add_r, Z.rem_mul_r in H2 by lia.
  pose proof (Z.mod_pos_bound x (2 ^ t) HP).
  pose proof (Z.mod_pos_bound (x / 2 ^ t) (2 ^ (trailing_zeros x - t)) HQ). nia.
Qed.

(** * Encoding and decoding one value *)

(** Either nothing is known about leading and trailing zeros, or they leave meaningful bits. *)
Definition window (leading trailing : Z) : Prop :=
  (leading = 255 /\ trailing = 0) \/ (0 <= leading /\ 0 <= trailing /\ leading + trailing <= 31).

Ltac reads r Hwf Hu :=
  let r' := fresh "r" in let E := fresh "E" in let W := fresh "W" in let U := fresh "U" in
  let B := fresh "B" in
  destruct (read_bit_correct r _ _ Hwf Hu) as (r' & E & W & U & B).

Lemma append_xor_correct b leading trailing last value :
  wf_builder b -> is_u32 last -> is_u32 value -> window leading trailing ->
  let '(b', leading', trailing') :=
    append_value_xor_last_value b leading trailing last value in
  wf_builder b' /\ window leading' trailing' /\
  exists bits, bits <> [] /\ builder_bits b' = builder_bits b ++ bits /\
    forall r rest, wf_reader r -> unread r = bits ++ rest ->
      exists r', decode_one r leading trailing last = Ok (r', leading', trailing', value) /\
                 wf_reader r' /\ unread r' = rest.
Proof.
  intros Hb Hlast Hvalue Hw. unfold append_value_xor_last_value.
  set (x := Z.lxor value last).
  assert (Hx : is_u32 x) by (apply lxor_u32; auto).
  assert (Hback : Z.lxor x last = value).
  { unfold x. rewrite Z.lxor_assoc, Z.lxor_nilpotent, Z.lxor_0_r. reflexivity. }
  destruct (Z.eqb_spec x 0) as [Hx0|Hx0].
  - (* the same value *)
    assert (value = last) as -> by (apply Z.lxor_eq; auto).
    destruct (append_one_correct b Hb) as [H1 E1].
    destruct (append_zero_correct _ H1) as [H2 E2].
    split; [auto|]. split; [auto|]. exists [true; false].
    split; [discriminate|]. split; [rewrite E2, E1, <- app_assoc; reflexivity|].
    intros r rest Hwf Hu. cbn [app] in Hu. unfold decode_one.
    destruct (read_bit_correct r _ _ Hwf Hu) as (r1 & R1 & W1 & U1 & _).
    destruct (read_bit_correct r1 _ _ W1 U1) as (r2 & R2 & W2 & U2 & _).
    rewrite R1. cbn [bind]. rewrite R2. cbn [bind]. eauto.
  - assert (Hpos : 0 < x) by (unfold is_u32 in Hx; lia).
    destruct (trailing_zeros_spec x Hpos) as [Ht Htm].
    assert (Hlog : Z.log2 x <= 31).
    { assert (Z.log2 x < 32); [|lia]. apply Z.log2_lt_pow2; unfold is_u32 in Hx; lia. }
    pose proof (Z.log2_nonneg x) as Hlog0.
    destruct (Z.log2_spec x Hpos) as [_ Hxlt].
    unfold leading_zeros.
    destruct (Z.leb_spec leading (31 - Z.log2 x)) as [Hl|Hl];
    [destruct (Z.leb_spec trailing (trailing_zeros x)) as [Htr|Htr]|]; cbn [andb].
    + (* reuse leading and trailing zeros *)
      destruct Hw as [[-> ->]|(Hl0 & Ht0 & Hlt)]; [lia|].
      set (m := 32 - leading - trailing).
      assert (Em : u8 (value_size_in_bits - leading - trailing) = m).
      { unfold u8, value_size_in_bits, m. apply Z.mod_small. lia. }
      rewrite Em.
      destruct (append_zero_correct b Hb) as [H1 E1].
      destruct (append_bits_correct _ (Z.shiftr x trailing) m H1) as [H2 E2];
        [unfold m; lia|apply Z.shiftr_nonneg; lia|].
      split; [auto|]. split; [right; lia|].
      exists (false :: bits_of (Z.shiftr x trailing) (Z.to_nat m)).
      split; [discriminate|]. split; [rewrite E2, E1, <- app_assoc; reflexivity|].
      intros r rest Hwf Hu. cbn [app] in Hu. unfold decode_one.
      destruct (read_bit_correct r _ _ Hwf Hu) as (r1 & R1 & W1 & U1 & _).
      rewrite R1. cbn [bind]. rewrite Em.
      destruct (read_bits_correct r1 (Z.to_nat m) _ _ W1 U1 (bits_of_length _ _)
                  ltac:(unfold m; lia)) as (r2 & R2 & W2 & U2 & _).
      rewrite R2. cbn [bind]. exists r2. split; [|auto].
      rewrite val_of_bits_of, Z2Nat.id by (unfold m; lia).
      rewrite (shift_restore x trailing m); try (unfold m; lia).
      * rewrite Hback. reflexivity.
      * split; [lia|]. eapply Z.lt_le_trans; [exact Hxlt|]. apply Z.pow_le_mono_r; unfold m; lia.
      * apply trailing_le; lia.
    + (* new leading and trailing zeros: trailing does not fit *)
      set (lz := 31 - Z.log2 x) in *. set (tz := trailing_zeros x) in *.
      set (m := value_size_in_bits - lz - tz).
      assert (Hm : 1 <= m <= 32) by (unfold m, value_size_in_bits, lz; lia).
      destruct (append_one_correct b Hb) as [H1 E1].
      destruct (append_one_correct _ H1) as [H2 E2].
      destruct (append_bits_correct _ lz 5 H2) as [H3 E3]; [lia|unfold lz; lia|].
      destruct (append_bits_correct _ m 6 H3) as [H4 E4]; [lia|lia|].
      destruct (append_bits_correct _ (Z.shiftr x tz) m H4) as [H5 E5];
        [lia|apply Z.shiftr_nonneg; lia|].
      split; [exact H5|]. split; [right; unfold lz; lia|].
      exists ([true; true] ++ bits_of lz 5 ++ bits_of m 6 ++ bits_of (Z.shiftr x tz) (Z.to_nat m)).
      split; [discriminate|].
      split; [rewrite E5, E4, E3, E2, E1, <- !app_assoc; reflexivity|].
      intros r rest Hwf Hu. rewrite <- !app_assoc in Hu. cbn [app] in Hu. unfold decode_one.
      destruct (read_bit_correct r _ _ Hwf Hu) as (r1 & R1 & W1 & U1 & _).
      destruct (read_bit_correct r1 _ _ W1 U1) as (r2 & R2 & W2 & U2 & _).
      rewrite R1. cbn [bind]. rewrite R2. cbn [bind].
      destruct (read_bits_correct r2 5 _ _ W2 U2 (bits_of_length _ _) ltac:(lia))
        as (r3 & R3 & W3 & U3 & _).
      rewrite R3. cbn [bind].
      destruct (read_bits_correct r3 6 _ _ W3 U3 (bits_of_length _ _) ltac:(lia))
        as (r4 & R4 & W4 & U4 & _).
      rewrite R4. cbn [bind].
      rewrite !val_of_bits_of. change (2 ^ Z.of_nat 5) with 32. change (2 ^ Z.of_nat 6) with 64.
      rewrite (Z.mod_small lz 32), (Z.mod_small m 64) by (unfold lz; lia).
      assert (Et : u8 (value_size_in_bits - m - lz) = tz).
      { unfold u8. rewrite Z.mod_small; unfold m, value_size_in_bits, lz; lia. }
      rewrite Et.
      assert (Em : u8 (value_size_in_bits - lz - tz) = m).
      { unfold u8. fold m. apply Z.mod_small; lia. }
      rewrite Em.
      destruct (read_bits_correct r4 (Z.to_nat m) _ _ W4 U4 (bits_of_length _ _) ltac:(lia))
        as (r5 & R5 & W5 & U5 & _).
      rewrite R5. cbn [bind]. exists r5. split; [|auto].
      rewrite val_of_bits_of, Z2Nat.id by lia.
      rewrite (shift_restore x tz m); try (unfold m, value_size_in_bits, lz; lia).
      * rewrite Hback. reflexivity.
      * split; [lia|]. eapply Z.lt_le_trans; [exact Hxlt|].
        apply Z.pow_le_mono_r; unfold m, value_size_in_bits, lz; lia.
    + (* new leading and trailing zeros: leading does not fit *)
      set (lz := 31 - Z.log2 x) in *. set (tz := trailing_zeros x) in *.
      set (m := value_size_in_bits - lz - tz).
      assert (Hm : 1 <= m <= 32) by (unfold m, value_size_in_bits, lz; lia).
      destruct (append_one_correct b Hb) as [H1 E1].
      destruct (append_one_correct _ H1) as [H2 E2].
      destruct (append_bits_correct _ lz 5 H2) as [H3 E3]; [lia|unfold lz; lia|].
      destruct (append_bits_correct _ m 6 H3) as [H4 E4]; [lia|lia|].
      destruct (append_bits_correct _ (Z.shiftr x tz) m H4) as [H5 E5];
        [lia|apply Z.shiftr_nonneg; lia|].
      split; [exact H5|]. split; [right; unfold lz; lia|].
      exists ([true; true] ++ bits_of lz 5 ++ bits_of m 6 ++ bits_of (Z.shiftr x tz) (Z.to_nat m)).
      split; [discriminate|].
      split; [rewrite E5, E4, E3, E2, E1, <- !app_assoc; reflexivity|].
      intros r rest Hwf Hu. rewrite <- !app_assoc in Hu. cbn [app] in Hu. unfold decode_one.
      destruct (read_bit_correct r _ _ Hwf Hu) as (r1 & R1 & W1 & U1 & _).
      destruct (read_bit_correct r1 _ _ W1 U1) as (r2 & R2 & W2 & U2 & _).
      rewrite R1. cbn [bind]. rewrite R2. cbn [bind].
      destruct (read_bits_correct r2 5 _ _ W2 U2 (bits_of_length _ _) ltac:(lia))
        as (r3 & R3 & W3 & U3 & _).
      rewrite R3. cbn [bind].
      destruct (read_bits_correct r3 6 _ _ W3 U3 (bits_of_length _ _) ltac:(lia))
        as (r4 & R4 & W4 & U4 & _).
      rewrite R4. cbn [bind].
      rewrite !val_of_bits_of. change (2 ^ Z.of_nat 5) with 32. change (2 ^ Z.of_nat 6) with 64.
      rewrite (Z.mod_small lz 32), (Z.mod_small m 64) by (unfold lz; lia).
      assert (Et : u8 (value_size_in_bits - m - lz) = tz).
      { unfold u8. rewrite Z.mod_small; unfold m, value_size_in_bits, lz; lia. }
      rewrite Et.
      assert (Em : u8 (value_size_in_bits - lz - tz) = m).
      { unfold u8. fold m. apply Z.mod_small; lia. }
      rewrite Em.
      destruct (read_bits_correct r4 (Z.to_nat m) _ _ W4 U4 (bits_of_length _ _) ltac:(lia))
        as (r5 & R5 & W5 & U5 & _).
      rewrite R5. cbn [bind]. exists r5. split; [|auto].
      rewrite val_of_bits_of, Z2Nat.id by lia.
      rewrite (shift_restore x tz m); try (unfold m, value_size_in_bits, lz; lia).
      * rewrite Hback. reflexivity.
      * split; [lia|]. eapply Z.lt_le_trans; [exact Hxlt|].
        apply Z.pow_le_mono_r; unfold m, value_size_in_bits, lz; lia.
Qed.

(** * Sequences of values *)

(** The values that are stored when [values] are compressed after [last]. *)
Fixpoint stored_values (P : platform) (eb : error_bound) (last : f32) (values : list f32)
  : list f32 :=
  match values with
  | [] => []
  | v :: values => let s := stored_value P eb last v in s :: stored_values P eb s values
  end.

Lemma stored_values_lossless P last values : stored_values P Lossless last values = values.
Proof. revert last. induction values; intros; simpl; congruence. Qed.

Lemma stored_values_length P eb last values :
  length (stored_values P eb last values) = length values.
Proof. revert last. induction values; intros; simpl; auto. Qed.

Definition wf_macaque (m : macaque_v) : Prop :=
  wf_builder (mv_compressed m) /\ window (mv_leading m) (mv_trailing m).

Lemma compress_loop_correct P values : forall m,
  wf_macaque m ->
  let m' := fold_left (compress_value_xor_last_value P) values m in
  wf_macaque m' /\
  exists bits, (values <> [] -> bits <> []) /\
    builder_bits (mv_compressed m') = builder_bits (mv_compressed m) ++ bits /\
    forall r rest, wf_reader r -> unread r = bits ++ rest ->
      exists ints,
        decode_loop (length values) r (mv_leading m) (mv_trailing m) (to_bits (mv_last m)) = Ok ints /\
        map from_bits ints = stored_values P (mv_error_bound m) (mv_last m) values.
Proof.
  induction values as [|v values IH]; intros m Hm m'; unfold m'.
  - cbn [fold_left]. split; auto. exists []. split; [auto|].
    rewrite app_nil_r. split; auto.
    intros. exists []. auto.
  - cbn [fold_left].
    destruct Hm as [Hb Hw].
    assert (Hm1 : exists m1, compress_value_xor_last_value P m v = m1) by eauto.
    destruct Hm1 as [m1 Em1]. rewrite Em1.
    unfold compress_value_xor_last_value in Em1.
    set (s := stored_value P (mv_error_bound m) (mv_last m) v) in *.
    pose proof (append_xor_correct (mv_compressed m) (mv_leading m) (mv_trailing m)
                  (to_bits (mv_last m)) (to_bits s) Hb (to_bits_range _) (to_bits_range _) Hw) as HS.
    destruct (append_value_xor_last_value (mv_compressed m) (mv_leading m) (mv_trailing m)
                (to_bits (mv_last m)) (to_bits s)) as [[b' l'] t'].
    destruct HS as (Hb' & Hw' & bits1 & Hne & Eb' & Hdec).
    subst m1.
    destruct (IH (update_min_max_and_last_value P m b' l' t' s)) as (Hm2 & bits2 & _ & E2 & Hdec2).
    { split; auto. }
    split; [exact Hm2|]. exists (bits1 ++ bits2).
    split; [intros _; destruct bits1; [congruence|discriminate]|].
    split; [rewrite E2; cbn [mv_compressed update_min_max_and_last_value];
            rewrite Eb', <- app_assoc; reflexivity|].
    intros r rest Hwf Hu. rewrite <- app_assoc in Hu.
    destruct (Hdec r _ Hwf Hu) as (r1 & D1 & W1 & U1).
    destruct (Hdec2 r1 rest W1 U1) as (ints & D2 & M2).
    cbn [update_min_max_and_last_value mv_leading mv_trailing mv_last mv_error_bound] in D2, M2.
    exists (to_bits s :: ints). split.
    + cbn [length decode_loop]. rewrite D1. cbn [bind]. rewrite D2. reflexivity.
    + cbn [map stored_values]. rewrite from_to_bits, M2. reflexivity.
Qed.

Lemma macaque_new_wf eb : wf_macaque (macaque_v_new eb).
Proof. split; [apply wf_builder_new|left; auto]. Qed.

(** Values compressed after the last value of a model. *)
Lemma without_first_round_trip P eb last values :
  values <> [] ->
  let m := compress_values_without_first P (macaque_v_new eb) values last in
  let bytes := fst (fst (macaque_v_model m)) in
  Forall is_u8 bytes /\
  macaque_v_grid bytes (length values) (Some last) = Ok (stored_values P eb last values) /\
  macaque_v_sum (length values) bytes (Some last) =
    Ok (sum_f32 f32_zero (stored_values P eb last values)).
Proof.
  intros Hne m bytes. unfold m, compress_values_without_first in *.
  set (m0 := MacaqueV (mv_error_bound (macaque_v_new eb)) _ _ last _ _ _ _) in *.
  assert (H0 : wf_macaque m0) by (apply macaque_new_wf).
  destruct (compress_loop_correct P values m0 H0) as (H1 & bits & Hbits & E & Hdec).
  unfold bytes, macaque_v_model in *. cbn [fst] in *.
  destruct (finish_correct _ (proj1 H1)) as (Hu8 & k & Hk & Ef).
  set (bs := finish (mv_compressed (fold_left (compress_value_xor_last_value P) values m0))) in *.
  rewrite E in Ef. cbn [m0 mv_compressed macaque_v_new] in Ef.
  change (builder_bits builder_new) with (@nil bool) in Ef. cbn [app] in Ef.
  assert (Hbs : bs <> []).
  { intros C. rewrite C in Ef. apply Hbits; auto. destruct bits; [auto|discriminate]. }
  destruct (reader_try_new_correct bs Hbs) as (Er & Hwr & Hur). rewrite Ef in Hur.
  destruct (Hdec _ _ Hwr Hur) as (ints & D & M).
  cbn [m0 mv_leading mv_trailing mv_last mv_error_bound macaque_v_new] in D, M.
  split; [exact Hu8|].
  unfold macaque_v_grid, macaque_v_sum. rewrite Er. cbn [bind]. rewrite D. cbn [bind].
  rewrite M. auto.
Qed.

(** Values compressed on their own: the first value is stored in full. *)
Lemma with_first_round_trip P eb v values :
  let m := compress_values P (macaque_v_new eb) (v :: values) in
  let bytes := fst (fst (macaque_v_model m)) in
  Forall is_u8 bytes /\
  macaque_v_grid bytes (length (v :: values)) None = Ok (v :: stored_values P eb v values) /\
  macaque_v_sum (length (v :: values)) bytes None =
    Ok (sum_f32 v (stored_values P eb v values)).
Proof.
  cbv zeta. unfold compress_values, macaque_v_model. cbn [fst fold_left].
  destruct (append_bits_correct builder_new (to_bits v) 32 wf_builder_new ltac:(lia)
              ltac:(pose proof (to_bits_range v); unfold is_u32 in *; lia)) as [Hb Eb].
  change (builder_bits builder_new) with (@nil bool) in Eb. cbn [app] in Eb.
  assert (Hm0 : exists m0, compress_value P (macaque_v_new eb) v = m0 /\ wf_macaque m0 /\
      mv_leading m0 = 255 /\ mv_trailing m0 = 0 /\ mv_last m0 = v /\ mv_error_bound m0 = eb /\
      builder_bits (mv_compressed m0) = bits_of (to_bits v) 32 /\
      b_bytes (mv_compressed m0) <> []).
  { eexists. split; [reflexivity|]. unfold compress_value.
    change (builder_is_empty (mv_compressed (macaque_v_new eb))) with true. cbv iota.
    cbn [update_min_max_and_last_value mv_leading mv_trailing mv_last mv_error_bound mv_compressed
         macaque_v_new].
    split; [split; [exact Hb|left; auto]|].
    do 4 (split; [reflexivity|]). split; [exact Eb|].
    unfold value_size_in_bits. intros C.
    pose proof (builder_bits_length _ Hb) as HL. rewrite C, Eb in HL.
    rewrite bits_of_length in HL. destruct Hb as [HR _]. simpl in HL. lia. }
  destruct Hm0 as (m0 & E0 & Hwf0 & El & Et & Elast & Eeb & Ebits & Hbytes).
  rewrite E0. clear E0.
  (* Later values are never stored in full because the builder stays non-empty. *)
  assert (Hgrow : forall values m, wf_macaque m -> b_bytes (mv_compressed m) <> [] ->
      fold_left (compress_value P) values m =
      fold_left (compress_value_xor_last_value P) values m).
  { clear. induction values as [|w values IH]; intros m Hm Hne; auto.
    cbn [fold_left]. unfold compress_value at 2, builder_is_empty.
    destruct (b_bytes (mv_compressed m)) eqn:Eb; [congruence|]. clear Hne.
    destruct (compress_loop_correct P [w] m Hm) as (Hm1 & bits & _ & E1 & _).
    cbn [fold_left] in Hm1, E1.
    apply IH; auto. intros C.
    pose proof (builder_bits_length _ (proj1 Hm1)) as L1.
    pose proof (builder_bits_length _ (proj1 Hm)) as L0.
    rewrite E1, app_length, C in L1. rewrite Eb in L0. cbn [length] in *.
    destruct Hm as [[HR _] _]. destruct Hm1 as [[HR1 _] _]. lia. }
  rewrite Hgrow by auto.
  destruct (compress_loop_correct P values m0 Hwf0) as (H1 & bits & _ & E & Hdec).
  destruct (finish_correct _ (proj1 H1)) as (Hu8 & k & Hk & Ef).
  set (bs := finish (mv_compressed (fold_left (compress_value_xor_last_value P) values m0))) in *.
  rewrite E, Ebits, <- app_assoc in Ef.
  assert (Hbs : bs <> []).
  { intros C. rewrite C in Ef. discriminate Ef. }
  destruct (reader_try_new_correct bs Hbs) as (Er & Hwr & Hur). rewrite Ef in Hur.
  destruct (read_bits_correct _ 32 _ _ Hwr Hur (bits_of_length _ _) ltac:(lia))
    as (r1 & R1 & W1 & U1 & _).
  destruct (Hdec _ _ W1 U1) as (ints & D & M).
  rewrite El, Et, Elast, Eeb in *.
  split; [exact Hu8|].
  assert (Efirst : u32 (val_of (bits_of (to_bits v) 32)) = to_bits v).
  { rewrite val_of_bits_of. change (2 ^ Z.of_nat 32) with (2 ^ 32).
    unfold u32. rewrite Z.mod_mod by lia. apply Z.mod_small. apply to_bits_range. }
  unfold macaque_v_grid, macaque_v_sum. rewrite Er. cbn [bind].
  change (length (v :: values) - 1)%nat with (length values - 0)%nat. rewrite Nat.sub_0_r.
  rewrite R1. cbn [bind]. rewrite Efirst, D. cbn [bind].
  cbn [map]. rewrite from_to_bits, M. auto.
Qed.

(** Lossless compression stores the bits of the values. *)
Lemma macaque_v_lossless P values :
  values <> [] ->
  (let bytes := fst (fst (macaque_v_model (compress_values P (macaque_v_new Lossless) values))) in
   macaque_v_grid bytes (length values) None = Ok values) /\
  (forall last,
     let bytes := fst (fst (macaque_v_model
                    (compress_values_without_first P (macaque_v_new Lossless) values last))) in
     macaque_v_grid bytes (length values) (Some last) = Ok values).
Proof.
  intros Hne. split.
  - destruct values as [|v values]; [congruence|].
    destruct (with_first_round_trip P Lossless v values) as (_ & E & _).
    rewrite stored_values_lossless in E. exact E.
  - intros last. destruct (without_first_round_trip P Lossless last values Hne) as (_ & E & _).
    rewrite stored_values_lossless in E. exact E.
Qed.
