From Coq Require Import ZArith List Bool Lia.
From Verif Require Import Model.Base Model.Bits Spec.BitsSpec.
Import ListNotations.
Open Scope Z_scope.

(** * Facts about [bits_of] and [val_of] *)

Lemma bits_of_length v n : length (bits_of v n) = n.
Proof. induction n; simpl; auto. Qed.

Lemma bits_of_ext v w n :
  (forall i, 0 <= i < Z.of_nat n -> Z.testbit v i = Z.testbit w i) ->
  bits_of v n = bits_of w n.
Proof.
  induction n; intros H; simpl; auto.
  f_equal; [apply H | apply IHn; intros; apply H]; lia.
Qed.

Lemma bits_of_app v a b :
  bits_of v (a + b) = bits_of (Z.shiftr v (Z.of_nat b)) a ++ bits_of v b.
Proof.
  induction a; simpl; auto.
  rewrite IHa. f_equal.
  rewrite Z.shiftr_spec by lia. f_equal. lia.
Qed.

Lemma val_of_app l1 l2 :
  val_of (l1 ++ l2) = val_of l1 * 2 ^ Z.of_nat (length l2) + val_of l2.
Proof.
  unfold val_of. rewrite fold_left_app.
  generalize (fold_left (fun acc b => 2 * acc + Z.b2z b) l1 0) as a.
  assert (H : forall l a, fold_left (fun acc b => 2 * acc + Z.b2z b) l a =
            a * 2 ^ Z.of_nat (length l) + fold_left (fun acc b => 2 * acc + Z.b2z b) l 0).
  { induction l as [|b l IH]; intros a; cbn [fold_left length].
    - simpl. lia.
    - rewrite (IH (2 * a + Z.b2z b)), (IH (2 * 0 + Z.b2z b)).
      rewrite Nat2Z.inj_succ, Z.pow_succ_r by lia. ring. }
  intros a. rewrite H. reflexivity.
Qed.

Lemma val_of_cons b l :
  val_of (b :: l) = Z.b2z b * 2 ^ Z.of_nat (length l) + val_of l.
Proof. change (b :: l) with ([b] ++ l). rewrite val_of_app. unfold val_of at 1. simpl. lia. Qed.

Lemma val_of_bits_of v n : val_of (bits_of v n) = v mod 2 ^ Z.of_nat n.
Proof.
  induction n.
  - simpl. rewrite Z.mod_1_r. reflexivity.
  - simpl bits_of. rewrite val_of_cons, bits_of_length, IHn.
    apply Z.bits_inj'. intros i Hi.
    destruct (Z.eq_dec i (Z.of_nat n)) as [->|Hne].
    + rewrite Z.mod_pow2_bits_low by lia.
      rewrite Z.add_comm, Z.add_nocarry_lxor.
      * rewrite Z.lxor_spec, Z.mod_pow2_bits_high by lia.
        rewrite Z.mul_pow2_bits by lia. rewrite Z.sub_diag.
        rewrite xorb_false_l. apply Z.b2z_bit0.
      * apply Z.bits_inj'. intros j Hj. rewrite Z.land_spec, Z.bits_0.
        destruct (Z.lt_ge_cases j (Z.of_nat n)).
        -- rewrite (Z.mul_pow2_bits_low) by lia. apply andb_false_r.
        -- rewrite Z.mod_pow2_bits_high by lia. reflexivity.
    + rewrite Z.add_comm, Z.add_nocarry_lxor.
      * rewrite Z.lxor_spec.
        destruct (Z.lt_ge_cases i (Z.of_nat n)).
        -- rewrite Z.mul_pow2_bits_low by lia.
           rewrite !Z.mod_pow2_bits_low by lia. apply xorb_false_r.
        -- rewrite !Z.mod_pow2_bits_high by lia.
           rewrite Z.mul_pow2_bits by lia.
           rewrite xorb_false_l.
           destruct (Z.testbit v (Z.of_nat n)); simpl Z.b2z.
           ++ rewrite Z.bits_above_log2; simpl; auto; lia.
           ++ apply Z.bits_0.
      * apply Z.bits_inj'. intros j Hj. rewrite Z.land_spec, Z.bits_0.
        destruct (Z.lt_ge_cases j (Z.of_nat n)).
        -- rewrite (Z.mul_pow2_bits_low) by lia. apply andb_false_r.
        -- rewrite Z.mod_pow2_bits_high by lia. reflexivity.
Qed.

Lemma val_of_range l : 0 <= val_of l < 2 ^ Z.of_nat (length l).
Proof.
  induction l as [|b l IH].
  - unfold val_of; simpl; lia.
  - rewrite val_of_cons. simpl length. rewrite Nat2Z.inj_succ, Z.pow_succ_r by lia.
    destruct b; simpl Z.b2z; lia.
Qed.

Lemma bits_of_mod v n : bits_of (v mod 2 ^ Z.of_nat n) n = bits_of v n.
Proof. apply bits_of_ext. intros. apply Z.mod_pow2_bits_low; lia. Qed.

Lemma bits_of_val_of l : bits_of (val_of l) (length l) = l.
Proof.
  induction l as [|b l IH]; simpl; auto.
  rewrite val_of_cons. pose proof (val_of_range l) as R.
  assert (E : forall i, 0 <= i < Z.of_nat (length l) ->
      Z.testbit (Z.b2z b * 2 ^ Z.of_nat (length l) + val_of l) i = Z.testbit (val_of l) i).
  { intros i Hi.
    rewrite <- (Z.mod_pow2_bits_low _ (Z.of_nat (length l)) i) by lia.
    rewrite Z.add_comm, Z.mod_add by lia.
    rewrite Z.mod_small by lia. reflexivity. }
  f_equal.
  - rewrite Z.testbit_eqb by lia.
    rewrite Z.add_comm, Z.div_add by lia. rewrite Z.div_small by lia.
    destruct b; reflexivity.
  - etransitivity; [|apply IH]. apply bits_of_ext; auto.
Qed.

Lemma bytes_bits_app a b : bytes_bits (a ++ b) = bytes_bits a ++ bytes_bits b.
Proof. unfold bytes_bits. apply flat_map_app. Qed.

Lemma bytes_bits_length bytes : length (bytes_bits bytes) = (8 * length bytes)%nat.
Proof.
  unfold bytes_bits. induction bytes; cbn [flat_map]; auto.
  rewrite app_length, bits_of_length, IHbytes. simpl length. lia.
Qed.

(** * The writer *)

(** Well-formed builders: the unused low bits of the current byte are zero. *)
Definition wf_builder (b : builder) : Prop :=
  1 <= remaining b <= 8 /\
  is_u8 (current_byte b) /\
  (forall i, 0 <= i < remaining b -> Z.testbit (current_byte b) i = false) /\
  Forall is_u8 (b_bytes b).

(** The bits written so far. *)
Definition builder_bits (b : builder) : list bool :=
  bytes_bits (b_bytes b) ++
  bits_of (Z.shiftr (current_byte b) (remaining b)) (Z.to_nat (8 - remaining b)).

Lemma wf_builder_new : wf_builder builder_new.
Proof.
  repeat split; simpl; try lia; intros; try apply Z.bits_0; auto.
Qed.

Lemma builder_bits_new : builder_bits builder_new = [].
Proof. reflexivity. Qed.

Lemma testbit_u8_high z i : is_u8 z -> 8 <= i -> Z.testbit z i = false.
Proof.
  intros [H0 H1] Hi.
  rewrite <- (Z.mod_small z (2 ^ 8)) by (simpl in *; lia).
  apply Z.mod_pow2_bits_high; lia.
Qed.

Lemma is_u8_testbit z : 0 <= z -> (forall i, 8 <= i -> Z.testbit z i = false) -> is_u8 z.
Proof.
  intros H0 H. split; auto.
  replace z with (z mod 2 ^ 8).
  - apply Z.mod_pos_bound. reflexivity.
  - apply Z.bits_inj'. intros i Hi.
    destruct (Z.lt_ge_cases i 8).
    + apply Z.mod_pow2_bits_low; auto.
    + rewrite Z.mod_pow2_bits_high by lia. symmetry. auto.
Qed.

Lemma testbit_ones_mask r i : 0 <= r -> 0 <= i ->
  Z.testbit (2 ^ r - 1) i = (i <? r).
Proof.
  intros. rewrite <- Z.sub_1_r || idtac.
  replace (2 ^ r - 1) with (Z.ones r) by (rewrite Z.ones_equiv; lia).
  destruct (Z.ltb_spec i r).
  - apply Z.ones_spec_low; lia.
  - apply Z.ones_spec_high; lia.
Qed.

Lemma mask_255 r : 1 <= r <= 8 -> Z.shiftr 255 (8 - r) = 2 ^ r - 1.
Proof.
  intros. assert (r = 1 \/ r = 2 \/ r = 3 \/ r = 4 \/ r = 5 \/ r = 6 \/ r = 7 \/ r = 8) as C by lia.
  repeat destruct C as [-> | C]; try reflexivity. subst; reflexivity.
Qed.

Lemma append_step_correct b bits n :
  wf_builder b -> 0 < n <= 64 -> 0 <= bits ->
  let '(b', n') := append_step b bits n in
  wf_builder b' /\ 0 <= n' < n /\
  builder_bits b' =
    builder_bits b ++ bits_of (Z.shiftr bits n') (Z.to_nat (n - n')).
Proof.
  intros (Hr & Hc & Hz & Hb) Hn Hbits. unfold append_step.
  destruct b as [cur r bytes]; simpl current_byte in *; simpl remaining in *; simpl b_bytes in *.
  destruct (Z.ltb_spec r n) as [Hlt|Hge].
  - (* fill the current byte *)
    replace (r - r) with 0 by lia. unfold push_if_full. simpl Z.eqb. cbv iota.
    rewrite Z.mod_small by lia.
    set (x := u8 (Z.land (Z.shiftr bits (n - r)) (2 ^ r - 1))).
    assert (Hx : forall i, 0 <= i -> Z.testbit x i = (i <? r) && Z.testbit bits (i + (n - r))).
    { intros i Hi. unfold x, u8.
      destruct (Z.lt_ge_cases i 8).
      - rewrite Z.mod_pow2_bits_low by lia.
        rewrite Z.land_spec, testbit_ones_mask, Z.shiftr_spec by lia. apply andb_comm.
      - rewrite Z.mod_pow2_bits_high by lia.
        destruct (Z.ltb_spec i r); [lia|reflexivity]. }
    assert (Hlor : is_u8 (Z.lor cur x)).
    { apply is_u8_testbit.
      - apply Z.lor_nonneg. split; [apply Hc|]. unfold x, u8. apply Z.mod_pos_bound. reflexivity.
      - intros i Hi. rewrite Z.lor_spec, testbit_u8_high, Hx by (auto; lia).
        destruct (Z.ltb_spec i r); [lia|reflexivity]. }
    split; [|split].
    + repeat split; simpl; try lia; intros; try apply Z.bits_0.
      apply Forall_app; auto.
    + lia.
    + unfold builder_bits at 1. simpl b_bytes. simpl current_byte. simpl remaining.
      replace (Z.to_nat (8 - 8)) with O by reflexivity.
      simpl bits_of. rewrite app_nil_r.
      rewrite bytes_bits_app. unfold builder_bits. simpl b_bytes. simpl current_byte. simpl remaining.
      rewrite <- app_assoc. f_equal.
      change (bytes_bits [Z.lor cur x]) with (bits_of (Z.lor cur x) 8 ++ []).
      rewrite app_nil_r.
      replace 8%nat with (Z.to_nat (8 - r) + Z.to_nat r)%nat at 1 by lia.
      rewrite bits_of_app. f_equal.
      * apply bits_of_ext. intros i Hi. rewrite !Z.shiftr_spec by lia.
        rewrite Z.lor_spec, Hx by lia. rewrite Z2Nat.id by lia.
        destruct (Z.ltb_spec (i + r) r); [lia|]. simpl. apply orb_false_r.
      * replace (n - (n - r)) with r by lia.
        apply bits_of_ext. intros i Hi.
        rewrite Z.lor_spec, Hx by lia. rewrite Hz by lia. simpl.
        rewrite Z.shiftr_spec by lia.
        destruct (Z.ltb_spec i r); [reflexivity|lia].
  - (* write the last bits *)
    rewrite (Z.mod_small (r - n)) by lia.
    rewrite mask_255 by lia.
    set (x := u8 (Z.land (u64 (Z.shiftl bits (r - n))) (2 ^ r - 1))).
    assert (Hx : forall i, 0 <= i ->
        Z.testbit x i = (i <? r) && ((r - n <=? i) && Z.testbit bits (i - (r - n)))).
    { intros i Hi. unfold x, u8, u64.
      destruct (Z.lt_ge_cases i 8).
      - rewrite Z.mod_pow2_bits_low by lia.
        rewrite Z.land_spec, testbit_ones_mask by lia.
        rewrite Z.mod_pow2_bits_low by lia.
        rewrite Z.shiftl_spec by lia.
        rewrite andb_comm. f_equal.
        destruct (Z.leb_spec (r - n) i); auto.
        rewrite Z.testbit_neg_r by lia. reflexivity.
      - rewrite Z.mod_pow2_bits_high by lia.
        destruct (Z.ltb_spec i r); [lia|reflexivity]. }
    assert (Hlor : is_u8 (Z.lor cur x)).
    { apply is_u8_testbit.
      - apply Z.lor_nonneg. split; [apply Hc|]. unfold x, u8. apply Z.mod_pos_bound. reflexivity.
      - intros i Hi. rewrite Z.lor_spec, testbit_u8_high, Hx by (auto; lia).
        destruct (Z.ltb_spec i r); [lia|reflexivity]. }
    assert (Happ : bits_of (Z.shiftr (Z.lor cur x) (r - n)) (Z.to_nat (8 - (r - n))) =
                   bits_of (Z.shiftr cur r) (Z.to_nat (8 - r)) ++ bits_of bits (Z.to_nat n)).
    { replace (Z.to_nat (8 - (r - n))) with (Z.to_nat (8 - r) + Z.to_nat n)%nat by lia.
      rewrite bits_of_app. f_equal.
      - apply bits_of_ext. intros i Hi. rewrite Z.shiftr_shiftr by lia.
        rewrite !Z.shiftr_spec by lia. rewrite Z2Nat.id by lia.
        replace (r - n + n) with r by lia.
        rewrite Z.lor_spec, Hx by lia.
        destruct (Z.ltb_spec (i + r) r); [lia|]. simpl. apply orb_false_r.
      - apply bits_of_ext. intros i Hi. rewrite Z.shiftr_spec by lia.
        rewrite Z.lor_spec, Hx by lia. rewrite Hz by lia. simpl.
        destruct (Z.ltb_spec (i + (r - n)) r); [|lia].
        destruct (Z.leb_spec (r - n) (i + (r - n))); [|lia]. simpl. f_equal. lia. }
    replace (n - n) with 0 by lia. replace (n - 0) with n by lia. rewrite Z.shiftr_0_r.
    unfold push_if_full. destruct (Z.eqb_spec (r - n) 0) as [He|He].
    + split; [|split].
      * repeat split; simpl; try lia; intros; try apply Z.bits_0. apply Forall_app; auto.
      * lia.
      * unfold builder_bits. simpl b_bytes. simpl current_byte. simpl remaining.
        replace (Z.to_nat (8 - 8)) with O by reflexivity. simpl bits_of at 1. rewrite app_nil_r.
        rewrite bytes_bits_app, <- app_assoc. f_equal.
        change (bytes_bits [Z.lor cur x]) with (bits_of (Z.lor cur x) 8 ++ []).
        rewrite app_nil_r. rewrite <- Happ, He.
        rewrite Z.shiftr_0_r. reflexivity.
    + split; [|split].
      * repeat split; simpl; try lia; auto; try apply Hlor.
        intros i Hi. rewrite Z.lor_spec, Hx, Hz by lia.
        destruct (Z.leb_spec (r - n) i); [lia|]. simpl. apply andb_false_r.
      * lia.
      * unfold builder_bits. simpl b_bytes. simpl current_byte. simpl remaining.
        rewrite Happ, app_assoc. reflexivity.
Qed.

Lemma append_loop_correct fuel b bits n :
  wf_builder b -> 0 <= n <= 64 -> 0 <= bits -> (Z.to_nat n <= fuel)%nat ->
  wf_builder (append_loop fuel b bits n) /\
  builder_bits (append_loop fuel b bits n) = builder_bits b ++ bits_of bits (Z.to_nat n).
Proof.
  revert b n. induction fuel; intros b n Hwf Hn Hb Hf; simpl append_loop.
  - replace n with 0 by lia. simpl. rewrite app_nil_r. auto.
  - destruct (Z.ltb_spec 0 n).
    + pose proof (append_step_correct b bits n Hwf ltac:(lia) Hb) as HS.
      destruct (append_step b bits n) as [b' n'].
      destruct HS as (Hwf' & Hn' & Hbits').
      destruct (IHfuel b' n' Hwf' ltac:(lia) Hb ltac:(lia)) as [IH1 IH2].
      split; auto. rewrite IH2, Hbits', <- app_assoc. f_equal.
      replace (Z.to_nat n) with (Z.to_nat (n - n') + Z.to_nat n')%nat by lia.
      rewrite bits_of_app. rewrite Z2Nat.id by lia. reflexivity.
    + replace n with 0 by lia. simpl. rewrite app_nil_r. auto.
Qed.

Lemma append_bits_correct b bits n :
  wf_builder b -> 0 <= n <= 64 -> 0 <= bits ->
  wf_builder (append_bits b bits n) /\
  builder_bits (append_bits b bits n) = builder_bits b ++ bits_of bits (Z.to_nat n).
Proof. intros. apply append_loop_correct; auto. Qed.

Lemma append_zero_correct b :
  wf_builder b -> wf_builder (append_a_zero_bit b) /\
  builder_bits (append_a_zero_bit b) = builder_bits b ++ [false].
Proof. intros. apply append_bits_correct; auto; lia. Qed.

Lemma append_one_correct b :
  wf_builder b -> wf_builder (append_a_one_bit b) /\
  builder_bits (append_a_one_bit b) = builder_bits b ++ [true].
Proof. intros. apply append_bits_correct; auto; lia. Qed.

(** The padding added by [finish] and [finish_with_one_bits]. *)
Lemma finish_correct b :
  wf_builder b ->
  Forall is_u8 (finish b) /\
  exists k, (k < 8)%nat /\ bytes_bits (finish b) = builder_bits b ++ repeat false k.
Proof.
  intros (Hr & Hc & Hz & Hb). unfold finish, builder_bits.
  destruct (Z.eqb_spec (remaining b) 8) as [He|He].
  - split; auto. exists O. split; [lia|]. rewrite He.
    replace (Z.to_nat (8 - 8)) with O by reflexivity. simpl.
    rewrite !app_nil_r. reflexivity.
  - split; [apply Forall_app; auto|].
    exists (Z.to_nat (remaining b)). split; [lia|].
    rewrite bytes_bits_app, <- app_assoc. f_equal.
    change (bytes_bits [current_byte b]) with (bits_of (current_byte b) 8 ++ []).
    rewrite app_nil_r.
    replace 8%nat with (Z.to_nat (8 - remaining b) + Z.to_nat (remaining b))%nat at 1 by lia.
    rewrite bits_of_app. rewrite Z2Nat.id by lia. f_equal.
    assert (G : forall m, Z.of_nat m <= remaining b -> bits_of (current_byte b) m = repeat false m).
    { induction m; intros; simpl; auto. rewrite Hz by lia. f_equal. apply IHm. lia. }
    apply G. lia.
Qed.

Lemma bits_of_ones m r : Z.of_nat m <= r -> bits_of (2 ^ r - 1) m = repeat true m.
Proof.
  induction m; intros; simpl; auto.
  rewrite testbit_ones_mask by lia.
  destruct (Z.ltb_spec (Z.of_nat m) r); [|lia]. f_equal. apply IHm. lia.
Qed.

Lemma builder_bits_length b :
  wf_builder b ->
  Z.of_nat (length (builder_bits b)) = 8 * Z.of_nat (length (b_bytes b)) + (8 - remaining b).
Proof.
  intros (Hr & _). unfold builder_bits.
  rewrite app_length, bytes_bits_length, bits_of_length. lia.
Qed.

Lemma finish_with_one_bits_correct b :
  wf_builder b ->
  Forall is_u8 (finish_with_one_bits b) /\
  exists k, (k < 8)%nat /\ bytes_bits (finish_with_one_bits b) = builder_bits b ++ repeat true k.
Proof.
  intros Hwf. pose proof Hwf as (Hr & Hc & Hz & Hb). unfold finish_with_one_bits.
  destruct (Z.eqb_spec (remaining b) 8) as [He|He].
  - unfold finish. rewrite He. simpl. split; auto. exists O. split; [lia|].
    unfold builder_bits. rewrite He. simpl. rewrite !app_nil_r. reflexivity.
  - assert (2 ^ 1 <= 2 ^ remaining b) by (apply Z.pow_le_mono_r; lia).
    destruct (append_bits_correct b (2 ^ remaining b - 1) (remaining b) Hwf
                ltac:(lia) ltac:(lia)) as [Hwf' Hbits].
    destruct (finish_correct _ Hwf') as (Hu8 & k & Hk & E).
    split; auto.
    pose proof (f_equal (@length bool) E) as EL.
    rewrite bytes_bits_length, app_length, repeat_length in EL.
    pose proof (f_equal (@length bool) Hbits) as HL.
    rewrite app_length, bits_of_length in HL.
    pose proof (builder_bits_length b Hwf) as BL.
    assert (k = 0)%nat as -> by lia.
    simpl in E. rewrite app_nil_r in E.
    exists (Z.to_nat (remaining b)). split; [lia|].
    rewrite E, Hbits, bits_of_ones by lia. reflexivity.
Qed.

(** * The reader *)

Lemma nth_error_bytes_bits bytes k :
  nth_error (bytes_bits bytes) k =
  match nth_error bytes (Nat.div k 8) with
  | None => None
  | Some byte => Some (Z.testbit byte (Z.of_nat (7 - Nat.modulo k 8)))
  end.
Proof.
  revert k. induction bytes as [|byte bytes IH]; intros k.
  - change (bytes_bits []) with (@nil bool).
    destruct (Nat.div k 8); destruct k; reflexivity.
  - unfold bytes_bits. cbn [flat_map]. fold (bytes_bits bytes).
    destruct (Nat.lt_ge_cases k 8) as [Hk|Hk].
    + rewrite nth_error_app1 by (rewrite bits_of_length; lia).
      rewrite Nat.div_small, Nat.mod_small by lia. cbn [nth_error].
      do 8 (destruct k; [reflexivity|]). lia.
    + rewrite nth_error_app2 by (rewrite bits_of_length; lia).
      rewrite bits_of_length, IH.
      replace (Nat.div k 8) with (S (Nat.div (k - 8) 8)).
      * cbn [nth_error].
        replace (Nat.modulo (k - 8) 8) with (Nat.modulo k 8); [reflexivity|].
        replace k with ((k - 8) + 1 * 8)%nat at 1 by lia.
        rewrite Nat.mod_add by lia. reflexivity.
      * replace k with ((k - 8) + 1 * 8)%nat at 2 by lia.
        rewrite Nat.div_add by lia. lia.
Qed.

Lemma land_1_testbit z i : 0 <= i -> Z.land (Z.shiftr z i) 1 = Z.b2z (Z.testbit z i).
Proof.
  intros. apply Z.bits_inj'. intros j Hj. rewrite Z.land_spec, Z.shiftr_spec by lia.
  destruct (Z.eq_dec j 0) as [->|].
  - rewrite Z.b2z_bit0. change (Z.testbit 1 0) with true. apply andb_true_r.
  - replace (Z.testbit 1 j) with false.
    + rewrite andb_false_r. destruct (Z.testbit z i); simpl.
      * symmetry. apply Z.bits_above_log2; simpl; lia.
      * symmetry. apply Z.bits_0.
    + symmetry. apply Z.bits_above_log2; simpl; lia.
Qed.

Lemma lor_shift_b2z v b : 0 <= v ->
  Z.lor (2 * v) (Z.b2z b) = 2 * v + Z.b2z b.
Proof.
  intros. assert (L : Z.land (2 * v) (Z.b2z b) = 0).
  2:{ rewrite Z.add_nocarry_lxor, Z.lxor_lor; auto. }
  apply Z.bits_inj'. intros j Hj. rewrite Z.land_spec, Z.bits_0.
  destruct (Z.eq_dec j 0) as [->|].
  - rewrite Z.testbit_even_0. reflexivity.
  - replace (Z.testbit (Z.b2z b) j) with false; [apply andb_false_r|].
    destruct b; simpl; symmetry; [apply Z.bits_above_log2; simpl; lia|apply Z.bits_0].
Qed.

(** Reading [n] bits starting at [k] from a buffer returns the number they denote. *)
Lemma read_loop_correct bytes n : forall k pre l rest,
  bytes_bits bytes = pre ++ l ++ rest -> length pre = k -> length l = n ->
  forall acc, 0 <= acc -> acc * 2 ^ Z.of_nat n + val_of l < 2 ^ 64 ->
  read_loop bytes k n acc = Ok (acc * 2 ^ Z.of_nat n + val_of l).
Proof.
  induction n; intros k pre l rest E Hp Hl acc Hacc Hlt.
  - destruct l; [|discriminate]. simpl. unfold val_of. simpl. f_equal. lia.
  - destruct l as [|b l]; [discriminate|]. injection Hl as Hl.
    cbn [read_loop].
    pose proof (nth_error_bytes_bits bytes k) as HN.
    rewrite E in HN. rewrite nth_error_app2 in HN by lia.
    rewrite Hp, Nat.sub_diag in HN. cbn [app nth_error] in HN.
    destruct (nth_error bytes (Nat.div k 8)) as [byte|]; [|discriminate].
    assert (HB : b = Z.testbit byte (Z.of_nat (7 - Nat.modulo k 8))) by congruence.
    rewrite land_1_testbit by lia. rewrite <- HB. clear HN HB.
    rewrite val_of_cons, Hl in Hlt. rewrite Nat2Z.inj_succ, Z.pow_succ_r in Hlt by lia.
    pose proof (val_of_range l) as VR. rewrite Hl in VR.
    assert (HP : 0 < 2 ^ Z.of_nat n) by (apply Z.pow_pos_nonneg; lia).
    rewrite Z.shiftl_mul_pow2 by lia. change (2 ^ 1) with 2.
    unfold u64. rewrite Z.mod_small.
    2:{ split; [lia|]. destruct b; simpl Z.b2z in *; nia. }
    rewrite Z.mul_comm, lor_shift_b2z by lia.
    rewrite (IHn (S k) (pre ++ [b]) l rest).
    + f_equal. rewrite val_of_cons, Hl, Nat2Z.inj_succ, Z.pow_succ_r by lia. ring.
    + rewrite E, <- app_assoc. reflexivity.
    + rewrite app_length. simpl. lia.
    + auto.
    + destruct b; cbn [Z.b2z]; lia.
    + destruct b; cbn [Z.b2z] in *; nia.
Qed.

(** The bits a reader has not read yet. *)
Definition unread (r : reader) : list bool := skipn (next_bit r) (bytes_bits (r_bytes r)).

(** Readers never move past the end of their bytes. *)
Definition wf_reader (r : reader) : Prop := (next_bit r <= 8 * length (r_bytes r))%nat.

Lemma read_bits_correct r n l rest :
  wf_reader r -> unread r = l ++ rest -> length l = n -> (n <= 64)%nat ->
  exists r', read_bits r n = Ok (val_of l, r') /\ wf_reader r' /\ unread r' = rest /\
             r_bytes r' = r_bytes r.
Proof.
  intros Hwf Hu Hl Hn. unfold wf_reader, unread in *.
  set (pre := firstn (next_bit r) (bytes_bits (r_bytes r))).
  assert (Hpre : length pre = next_bit r).
  { unfold pre. rewrite firstn_length, bytes_bits_length. lia. }
  assert (E : bytes_bits (r_bytes r) = pre ++ l ++ rest).
  { unfold pre. rewrite <- Hu. symmetry. apply firstn_skipn. }
  exists (Reader (next_bit r + n) (r_bytes r)).
  unfold read_bits.
  pose proof (val_of_range l) as VR.
  assert (2 ^ Z.of_nat (length l) <= 2 ^ 64) by (apply Z.pow_le_mono_r; lia).
  rewrite (read_loop_correct (r_bytes r) n (next_bit r) pre l rest E Hpre Hl 0) by lia.
  simpl bind. repeat split; auto.
  - pose proof (f_equal (@length bool) E) as EL.
    rewrite bytes_bits_length, !app_length in EL. simpl. lia.
  - simpl next_bit. simpl r_bytes. rewrite E.
    replace (next_bit r + n)%nat with (length (pre ++ l)) by (rewrite app_length; lia).
    rewrite app_assoc, skipn_app, skipn_all, Nat.sub_diag. reflexivity.
Qed.

Lemma read_bit_correct r b rest :
  wf_reader r -> unread r = b :: rest ->
  exists r', read_bit r = Ok (b, r') /\ wf_reader r' /\ unread r' = rest /\
             r_bytes r' = r_bytes r.
Proof.
  intros Hwf Hu.
  destruct (read_bits_correct r 1 [b] rest Hwf Hu eq_refl ltac:(lia)) as (r' & E & H).
  exists r'. unfold read_bit. rewrite E. simpl. split; auto.
  f_equal. f_equal. destruct b; reflexivity.
Qed.

Lemma unread_length r : length (unread r) = remaining_bits r.
Proof. unfold unread, remaining_bits. rewrite skipn_length, bytes_bits_length. lia. Qed.

Lemma reader_is_empty_correct r :
  wf_reader r -> reader_is_empty r = match unread r with [] => true | _ => false end.
Proof.
  intros Hwf. unfold reader_is_empty, wf_reader in *.
  pose proof (unread_length r) as HL. unfold remaining_bits in HL.
  destruct (unread r) as [|b l].
  - simpl in HL. assert (next_bit r = 8 * length (r_bytes r))%nat as -> by lia.
    rewrite Nat.mul_comm, Nat.div_mul by lia. apply Nat.eqb_refl.
  - simpl in HL. apply Nat.eqb_neq.
    pose proof (Nat.div_lt_upper_bound (next_bit r) 8 (length (r_bytes r))). lia.
Qed.

Lemma reader_try_new_correct bytes :
  bytes <> [] ->
  reader_try_new bytes = Ok (Reader 0 bytes) /\ wf_reader (Reader 0 bytes) /\
  unread (Reader 0 bytes) = bytes_bits bytes.
Proof.
  intros. destruct bytes; [congruence|]. repeat split. unfold wf_reader. simpl. lia.
Qed.

(** * Sequences of writes *)

Definition writes_bits (ws : list (Z * nat)) : list bool :=
  flat_map (fun w => bits_of (fst w) (snd w)) ws.

Lemma write_all_correct ws b :
  wf_builder b -> Forall wf_write ws ->
  wf_builder (write_all ws b) /\ builder_bits (write_all ws b) = builder_bits b ++ writes_bits ws.
Proof.
  revert b. induction ws as [|w ws IH]; intros b Hwf Hws; simpl.
  - rewrite app_nil_r. auto.
  - inversion Hws as [|? ? [Hw1 Hw2] Hws']; subst.
    destruct (append_bits_correct b (fst w) (Z.of_nat (snd w)) Hwf ltac:(lia)
                ltac:(destruct Hw1; lia)) as [Hwf' E].
    destruct (IH _ Hwf' Hws') as [H1 H2]. split; auto.
    rewrite H2, E, Nat2Z.id, <- app_assoc. reflexivity.
Qed.

Lemma read_all_correct ws r rest :
  wf_reader r -> Forall wf_write ws -> unread r = writes_bits ws ++ rest ->
  exists r', read_all (map snd ws) r = Ok (map (fun w => fst w mod 2 ^ Z.of_nat (snd w)) ws, r') /\
             wf_reader r' /\ unread r' = rest.
Proof.
  revert r. induction ws as [|w ws IH]; intros r Hwf Hws Hu; simpl.
  - exists r. auto.
  - inversion Hws as [|? ? [Hw1 Hw2] Hws']; subst.
    simpl in Hu. rewrite <- app_assoc in Hu.
    destruct (read_bits_correct r (snd w) _ _ Hwf Hu (bits_of_length _ _) Hw2)
      as (r1 & E1 & Hwf1 & Hu1 & _).
    rewrite E1. simpl bind.
    destruct (IH r1 Hwf1 Hws' Hu1) as (r2 & E2 & Hwf2 & Hu2).
    rewrite E2. simpl bind. exists r2. rewrite val_of_bits_of. auto.
Qed.

Lemma writes_bits_length ws : length (writes_bits ws) = total_width ws.
Proof.
  unfold writes_bits, total_width. induction ws; simpl; auto.
  rewrite app_length, bits_of_length. lia.
Qed.

Lemma finish_as_correct ones b :
  wf_builder b ->
  Forall is_u8 (finish_as ones b) /\
  exists k, (k < 8)%nat /\ bytes_bits (finish_as ones b) = builder_bits b ++ repeat ones k.
Proof. destruct ones; [apply finish_with_one_bits_correct|apply finish_correct]. Qed.

Lemma total_width_app a b : total_width (a ++ b) = (total_width a + total_width b)%nat.
Proof. unfold total_width. induction a; simpl; auto. lia. Qed.

Lemma writes_bits_pad ones k :
  writes_bits (repeat (Z.b2z ones, 1%nat) k) = repeat ones k.
Proof.
  induction k; simpl; auto. unfold writes_bits in *. rewrite IHk.
  f_equal. apply Z.b2z_bit0.
Qed.

Lemma bits_round_trip ones ws :
  Forall wf_write ws ->
  let bytes := finish_as ones (write_all ws builder_new) in
  let padding := (8 * length bytes - total_width ws)%nat in
  Forall is_u8 bytes /\
  length bytes = Nat.div (total_width ws + 7) 8 /\
  match reader_try_new bytes with
  | Ok r =>
      exists r',
        read_all (map snd ws ++ repeat 1%nat padding) r =
          Ok (map (fun w => fst w mod 2 ^ Z.of_nat (snd w)) ws ++
              repeat (Z.b2z ones) padding, r') /\
        reader_is_empty r' = true
  | Err => total_width ws = O
  | Panic => False
  end.
Proof.
  intros Hws bytes padding.
  destruct (write_all_correct ws builder_new wf_builder_new Hws) as [Hwf E].
  rewrite builder_bits_new in E. simpl in E.
  destruct (finish_as_correct ones _ Hwf) as (Hu8 & k & Hk & Ef). fold bytes in Hu8, Ef.
  rewrite E in Ef.
  pose proof (f_equal (@length bool) Ef) as EL.
  rewrite bytes_bits_length, app_length, writes_bits_length, repeat_length in EL.
  split; auto. split.
  - replace (total_width ws + 7)%nat with (7 - k + length bytes * 8)%nat by lia.
    rewrite Nat.div_add by lia. rewrite Nat.div_small by lia. lia.
  - assert (padding = k) as -> by (unfold padding; lia).
    destruct bytes as [|byte bytes'] eqn:Eb; cbn [reader_try_new]; [simpl in EL; lia|].
    rewrite <- Eb in *. clear Eb.
    assert (Hwr : wf_reader (Reader 0 bytes)) by (unfold wf_reader; simpl; lia).
    destruct (read_all_correct (ws ++ repeat (Z.b2z ones, 1%nat) k) (Reader 0 bytes) [] Hwr)
      as (r & E1 & Hwf1 & E2).
    + apply Forall_app. split; auto. apply Forall_forall. intros x Hx.
      apply repeat_spec in Hx. subst. split; simpl; [|lia]. destruct ones; split; simpl; lia.
    + unfold writes_bits. rewrite flat_map_app. fold (writes_bits ws).
      fold (writes_bits (repeat (Z.b2z ones, 1%nat) k)).
      rewrite writes_bits_pad, app_nil_r. exact Ef.
    + exists r. split.
      * rewrite !map_app in E1.
        assert (M1 : map snd (repeat (Z.b2z ones, 1%nat) k) = repeat 1%nat k)
          by (clear; induction k; simpl; congruence).
        assert (M2 : map (fun w => fst w mod 2 ^ Z.of_nat (snd w)) (repeat (Z.b2z ones, 1%nat) k)
                     = repeat (Z.b2z ones) k).
        { clear. induction k; auto. cbn [repeat map]. rewrite IHk. f_equal.
          destruct ones; reflexivity. }
        rewrite M1, M2 in E1. exact E1.
      * rewrite reader_is_empty_correct, E2 by auto. reflexivity.
Qed.
