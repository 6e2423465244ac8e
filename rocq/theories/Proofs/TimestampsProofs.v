From Coq Require Import ZArith List Bool Lia Sorting.Sorted.
From Verif Require Import Model.Base Model.Bits Model.Timestamps.
From Verif Require Import Spec.BitsSpec Spec.TimestampsSpec Proofs.BitsProofs.
Import ListNotations.
Open Scope Z_scope.

(** * Wrapping *)

Lemma i64_range z : is_i64 (i64 z).
Proof. unfold is_i64, i64. pose proof (Z.mod_pos_bound (z + 2 ^ 63) (2 ^ 64)). lia. Qed.

Lemma i64_id z : is_i64 z -> i64 z = z.
Proof. unfold is_i64, i64. intros. rewrite Z.mod_small; lia. Qed.

Lemma u64_range z : is_u64 (u64 z).
Proof. unfold is_u64, u64. apply Z.mod_pos_bound. lia. Qed.

Lemma u64_id z : is_u64 z -> u64 z = z.
Proof. unfold is_u64, u64. intros. apply Z.mod_small. lia. Qed.

Lemma i64_ex z : exists k, i64 z = z + k * 2 ^ 64.
Proof.
  unfold i64. exists (- ((z + 2 ^ 63) / 2 ^ 64)).
  pose proof (Z.div_mod (z + 2 ^ 63) (2 ^ 64)). lia.
Qed.

Lemma u64_ex z : exists k, u64 z = z + k * 2 ^ 64.
Proof.
  unfold u64. exists (- (z / 2 ^ 64)).
  pose proof (Z.div_mod z (2 ^ 64)). lia.
Qed.

Lemma i64_add_mult z k : i64 (z + k * 2 ^ 64) = i64 z.
Proof.
  unfold i64. replace (z + k * 2 ^ 64 + 2 ^ 63) with (z + 2 ^ 63 + k * 2 ^ 64) by lia.
  rewrite Z.mod_add by lia. reflexivity.
Qed.

Lemma u64_add_mult z k : u64 (z + k * 2 ^ 64) = u64 z.
Proof. unfold u64. apply Z.mod_add. lia. Qed.

(** Recomputing a timestamp from a wrapped delta gives the timestamp. *)
Lemma delta_restore t last : is_i64 t -> i64 (last + i64 (u64 (i64 (t - last)))) = t.
Proof.
  intros Ht.
  destruct (i64_ex (t - last)) as [k1 E1]. rewrite E1.
  rewrite u64_add_mult.
  destruct (u64_ex (t - last)) as [k2 E2]. rewrite E2.
  rewrite i64_add_mult.
  destruct (i64_ex (t - last)) as [k3 E3]. rewrite E3.
  replace (last + (t - last + k3 * 2 ^ 64)) with (t + k3 * 2 ^ 64) by lia.
  rewrite i64_add_mult. apply i64_id. auto.
Qed.

(** Recomputing a delta from a wrapped delta-of-delta gives the delta. *)
Lemma dod_restore delta last_delta :
  u64 (u64 last_delta + u64 (i64 (delta - last_delta))) = u64 delta.
Proof.
  destruct (i64_ex (delta - last_delta)) as [k1 E1]. rewrite E1, u64_add_mult.
  destruct (u64_ex last_delta) as [k2 E2], (u64_ex (delta - last_delta)) as [k3 E3].
  rewrite E2, E3.
  replace (last_delta + k2 * 2 ^ 64 + (delta - last_delta + k3 * 2 ^ 64))
    with (delta + (k2 + k3) * 2 ^ 64) by lia.
  apply u64_add_mult.
Qed.

(** * Irregular timestamps *)

(** The bits written for a delta-of-delta. *)
Definition dod_bits (dod : Z) : list bool :=
  if dod =? 0 then [false]
  else if (-63 <=? dod) && (dod <=? 64) then [true; false] ++ bits_of (u64 dod) 7
  else if (-255 <=? dod) && (dod <=? 256) then [true; true; false] ++ bits_of (u64 dod) 9
  else if (-2047 <=? dod) && (dod <=? 2048) then [true; true; true; false] ++ bits_of (u64 dod) 12
  else if (-2147483647 <=? dod) && (dod <=? 2147483648) then
    [true; true; true; true; false] ++ bits_of (u64 dod) 32
  else [true; true; true; true; true] ++ bits_of (u64 dod) 64.

Ltac two_appends :=
  match goal with
  | Hwf : wf_builder ?b |- context [append_bits (append_bits ?b ?c ?m) ?v ?n] =>
      let H1 := fresh in let H2 := fresh in let E1 := fresh in let E2 := fresh in
      destruct (append_bits_correct b c m Hwf ltac:(lia) ltac:(lia)) as [H1 E1];
      destruct (append_bits_correct (append_bits b c m) v n H1 ltac:(lia)
                  ltac:(apply u64_range)) as [H2 E2];
      split; [exact H2|]; rewrite E2, E1, <- app_assoc; reflexivity
  end.

Lemma append_delta_of_delta_correct b dod :
  wf_builder b ->
  wf_builder (append_delta_of_delta b dod) /\
  builder_bits (append_delta_of_delta b dod) = builder_bits b ++ dod_bits dod.
Proof.
  intros Hwf. unfold append_delta_of_delta, dod_bits.
  destruct (dod =? 0); [apply append_zero_correct; auto|].
  destruct ((-63 <=? dod) && (dod <=? 64)); [two_appends|].
  destruct ((-255 <=? dod) && (dod <=? 256)); [two_appends|].
  destruct ((-2047 <=? dod) && (dod <=? 2048)); [two_appends|].
  destruct ((-2147483647 <=? dod) && (dod <=? 2147483648)); two_appends.
Qed.

Fixpoint irregular_bits (last_timestamp last_delta : Z) (ts : list Z) : list bool :=
  match ts with
  | [] => []
  | t :: ts =>
      let delta := i64 (t - last_timestamp) in
      dod_bits (i64 (delta - last_delta)) ++ irregular_bits t delta ts
  end.

Lemma compress_irregular_loop_correct ts : forall b last last_delta,
  wf_builder b ->
  wf_builder (compress_irregular_loop b last last_delta ts) /\
  builder_bits (compress_irregular_loop b last last_delta ts) =
    builder_bits b ++ irregular_bits last last_delta ts.
Proof.
  induction ts as [|t ts IH]; intros b last last_delta Hwf; simpl.
  - rewrite app_nil_r. auto.
  - destruct (append_delta_of_delta_correct b (i64 (i64 (t - last) - last_delta)) Hwf) as [H1 E1].
    destruct (IH _ t (i64 (t - last)) H1) as [H2 E2].
    split; auto. rewrite E2, E1, <- app_assoc. reflexivity.
Qed.

Lemma lor_disjoint e c n : 0 <= n -> 0 <= e < 2 ^ n -> Z.lor e (c * 2 ^ n) = e + c * 2 ^ n.
Proof.
  intros Hn He. assert (L : Z.land e (c * 2 ^ n) = 0).
  2:{ rewrite Z.add_nocarry_lxor, Z.lxor_lor; auto. }
  apply Z.bits_inj'. intros j Hj. rewrite Z.land_spec, Z.bits_0.
  destruct (Z.lt_ge_cases j n).
  - rewrite Z.mul_pow2_bits_low by lia. apply andb_false_r.
  - rewrite <- (Z.mod_small e (2 ^ n)) by lia. rewrite Z.mod_pow2_bits_high by lia. reflexivity.
Qed.

(** Sign extension of a delta-of-delta stored in [n] bits. *)
Lemma sign_extend dod n :
  In n [7; 9; 12; 32; 64] ->
  - 2 ^ (n - 1) < dod <= 2 ^ (n - 1) \/ n = 64 /\ is_i64 dod ->
  (if 2 ^ (n - 1) <? (dod mod 2 ^ n) then
     Z.lor (dod mod 2 ^ n) (u64 (Z.shiftl (2 ^ 128 - 1) n))
   else dod mod 2 ^ n) = u64 dod.
Proof.
  intros Hn Hr.
  assert (Hn0 : 0 <= n) by (simpl in Hn; intuition lia).
  assert (HP : 0 < 2 ^ n) by (apply Z.pow_pos_nonneg; lia).
  assert (HC : u64 (Z.shiftl (2 ^ 128 - 1) n) = (2 ^ (64 - n) - 1) * 2 ^ n).
  { simpl in Hn. repeat destruct Hn as [<-|Hn]; try reflexivity. contradiction. }
  assert (HM : (2 ^ (64 - n) - 1) * 2 ^ n = 2 ^ 64 - 2 ^ n).
  { simpl in Hn. repeat destruct Hn as [<-|Hn]; try reflexivity. contradiction. }
  assert (HH : 2 ^ n = 2 * 2 ^ (n - 1)).
  { simpl in Hn. repeat destruct Hn as [<-|Hn]; try reflexivity. contradiction. }
  assert (HL : 2 ^ n <= 2 ^ 64).
  { simpl in Hn. apply Z.pow_le_mono_r; intuition lia. }
  rewrite HC, lor_disjoint by (auto; apply Z.mod_pos_bound; lia).
  rewrite HM. unfold u64.
  destruct Hr as [Hr|[-> Hr]].
  - destruct (Z.lt_ge_cases dod 0) as [Hneg|Hpos].
    + assert (Em : dod mod 2 ^ n = dod + 2 ^ n).
      { rewrite <- (Z.mod_add dod 1) by lia. rewrite Z.mod_small; lia. }
      rewrite Em. destruct (Z.ltb_spec (2 ^ (n - 1)) (dod + 2 ^ n)); [|lia].
      rewrite <- (Z.mod_add dod 1) by lia. rewrite Z.mod_small; lia.
    + rewrite (Z.mod_small dod (2 ^ n)) by lia.
      destruct (Z.ltb_spec (2 ^ (n - 1)) dod); [lia|].
      symmetry. apply Z.mod_small. lia.
  - destruct (2 ^ (64 - 1) <? dod mod 2 ^ 64); lia.
Qed.

Lemma read_decode_correct r n dod last_delta rest :
  In n [7%nat; 9%nat; 12%nat; 32%nat; 64%nat] ->
  - 2 ^ (Z.of_nat n - 1) < dod <= 2 ^ (Z.of_nat n - 1) \/ n = 64%nat /\ is_i64 dod ->
  wf_reader r -> unread r = bits_of (u64 dod) n ++ rest ->
  exists r', read_decode_and_compute_delta r n last_delta = Ok (u64 (last_delta + u64 dod), r') /\
             wf_reader r' /\ unread r' = rest /\ r_bytes r' = r_bytes r.
Proof.
  intros Hn Hr Hwf Hu.
  assert (Hn64 : (n <= 64)%nat) by (simpl in Hn; intuition lia).
  destruct (read_bits_correct r n _ rest Hwf Hu (bits_of_length _ _) Hn64)
    as (r' & E & Hwf' & Hu' & Hb').
  exists r'. split; [|auto]. unfold read_decode_and_compute_delta. rewrite E. cbn [bind].
  rewrite val_of_bits_of.
  assert (Em : u64 dod mod 2 ^ Z.of_nat n = dod mod 2 ^ Z.of_nat n).
  { unfold u64. symmetry.
    assert (E64 : 2 ^ 64 = 2 ^ Z.of_nat n * 2 ^ (64 - Z.of_nat n)).
    { rewrite <- Z.pow_add_r by lia. f_equal. lia. }
    rewrite E64. rewrite Z.rem_mul_r by (try apply Z.pow_nonzero; try apply Z.pow_pos_nonneg; lia).
    rewrite Z.mul_comm, Z.mod_add by (apply Z.pow_nonzero; lia).
    rewrite Z.mod_mod by (apply Z.pow_nonzero; lia). reflexivity. }
  rewrite Em. rewrite sign_extend; [reflexivity| |].
  - simpl in Hn |- *. intuition (subst; auto 10).
  - destruct Hr as [Hr|[-> Hr]]; auto.
Qed.

(** Reading the flag of a delta-of-delta. *)
Lemma read_leading_ones fuel : forall leading m r rest,
  wf_reader r -> unread r = repeat true m ++ rest ->
  (m = fuel \/ ((m < fuel)%nat /\ (rest = [] \/ exists rest', rest = false :: rest'))) ->
  exists r', read_leading_one_bits fuel leading r = Ok ((leading + m)%nat, r') /\ wf_reader r' /\
             r_bytes r' = r_bytes r /\
             unread r' = if (m =? fuel)%nat then rest else tl rest.
Proof.
  induction fuel; intros leading m r rest Hwf Hu Hm.
  - assert (m = 0)%nat as -> by lia. exists r. simpl. rewrite Nat.add_0_r. auto.
  - cbn [read_leading_one_bits]. rewrite reader_is_empty_correct, Hu by auto.
    destruct m as [|m].
    + destruct Hm as [Hm|[_ [->|[rest' ->]]]]; [discriminate| |]; simpl repeat; cbn [app].
      * exists r. rewrite Nat.add_0_r. auto.
      * cbn [repeat app] in Hu.
        destruct (read_bit_correct r _ _ Hwf Hu) as (r' & E & Hwf' & Hu' & Hb').
        rewrite E. cbn [bind]. exists r'. rewrite Nat.add_0_r. auto.
    + cbn [repeat app] in Hu |- *.
      destruct (read_bit_correct r _ _ Hwf Hu) as (r1 & E & Hwf1 & Hu1 & Hb1).
      rewrite E. cbn [bind].
      destruct (IHfuel (S leading) m r1 rest Hwf1 Hu1) as (r2 & E2 & Hwf2 & Hb2 & Hu2).
      { destruct Hm as [Hm|[Hm Hr]]; [left; lia|right; split; [lia|auto]]. }
      exists r2. rewrite E2. split; [f_equal; f_equal; lia|]. split; auto. split; [congruence|].
      exact Hu2.
Qed.

Lemma dod_bits_nonempty dod : exists b l, dod_bits dod = b :: l.
Proof.
  unfold dod_bits. repeat match goal with |- context [if ?c then _ else _] => destruct c end;
  simpl; eauto.
Qed.

(** The flag and the payload of a delta-of-delta other than zero. *)
Lemma dod_bits_cases dod : is_i64 dod ->
  (dod = 0 /\ dod_bits dod = [false]) \/
  exists leading n,
    In (leading, n) [(1, 7); (2, 9); (3, 12); (4, 32); (5, 64)]%nat /\
    dod_bits dod = repeat true leading ++ (if (leading =? 5)%nat then [] else [false]) ++
                   bits_of (u64 dod) n /\
    (- 2 ^ (Z.of_nat n - 1) < dod <= 2 ^ (Z.of_nat n - 1) \/ n = 64%nat /\ is_i64 dod).
Proof.
  intros Hd. unfold dod_bits.
  destruct (Z.eqb_spec dod 0); [auto|]. right.
  destruct (Z.leb_spec (-63) dod), (Z.leb_spec dod 64); cbn [andb];
    try (exists 1%nat, 7%nat; split; [simpl; auto 10|split; [reflexivity|left; simpl; lia]]).
  all: destruct (Z.leb_spec (-255) dod), (Z.leb_spec dod 256); cbn [andb];
    try (exists 2%nat, 9%nat; split; [simpl; auto 10|split; [reflexivity|left; simpl; lia]]).
  all: destruct (Z.leb_spec (-2047) dod), (Z.leb_spec dod 2048); cbn [andb];
    try (exists 3%nat, 12%nat; split; [simpl; auto 10|split; [reflexivity|left; simpl; lia]]).
  all: destruct (Z.leb_spec (-2147483647) dod), (Z.leb_spec dod 2147483648); cbn [andb];
    try (exists 4%nat, 32%nat; split; [simpl; auto 10|split; [reflexivity|left; simpl; lia]]).
  all: exists 5%nat, 64%nat; split; [simpl; auto 10|split; [reflexivity|right; auto]].
Qed.

Ltac in_cases H :=
  cbn [In] in H;
  repeat (destruct H as [H|H]; [injection H as <- <-|]); [..|contradiction H].

Lemma decompress_irregular_loop_correct ts : forall fuel r last last_delta k,
  wf_reader r -> (k < 8)%nat -> Forall is_i64 ts ->
  unread r = irregular_bits last last_delta ts ++ repeat true k ->
  (length (unread r) < fuel)%nat ->
  decompress_irregular_loop fuel r (u64 last_delta) last = Ok ts.
Proof.
  induction ts as [|t ts IH]; intros fuel r last last_delta k Hwf Hk Hts Hu Hf.
  - destruct fuel; [lia|]. cbn [decompress_irregular_loop].
    rewrite reader_is_empty_correct, Hu by auto.
    cbn [irregular_bits app] in *.
    destruct k as [|k]; [reflexivity|]. cbn [repeat].
    destruct (le_lt_dec 5 (S k)) as [H5|H5].
    + destruct (read_leading_ones 5 0 5 r (repeat true (S k - 5)) Hwf) as (r' & E & Hwf' & _ & Hu').
      { rewrite Hu, <- repeat_app. f_equal. lia. }
      { auto. }
      rewrite E. cbn [bind plus Nat.eqb negb andb]. cbn [Nat.eqb] in Hu'.
      rewrite <- unread_length, Hu', repeat_length.
      destruct (Nat.ltb_spec (S k - 5) 7); [reflexivity|lia].
    + destruct (read_leading_ones 5 0 (S k) r [] Hwf) as (r' & E & Hwf' & _ & Hu').
      { rewrite Hu, app_nil_r. reflexivity. }
      { right. auto. }
      rewrite E. cbn [bind plus].
      replace (S k =? 5)%nat with false in Hu' by (symmetry; apply Nat.eqb_neq; lia).
      cbn [tl] in Hu'.
      rewrite <- unread_length, Hu'. reflexivity.
  - inversion Hts as [|? ? Ht Hts']; subst.
    destruct fuel; [lia|]. cbn [decompress_irregular_loop].
    rewrite reader_is_empty_correct, Hu by auto.
    cbn [irregular_bits] in Hu |- *.
    set (delta := i64 (t - last)) in *. set (dod := i64 (delta - last_delta)) in *.
    rewrite <- app_assoc in Hu |- *.
    destruct (dod_bits_nonempty dod) as (b0 & l0 & Eb0). rewrite Eb0. cbn [app].
    assert (HD : is_i64 dod) by apply i64_range.
    destruct (dod_bits_cases dod HD) as [[Hd0 Ed]|(leading & n & Hin & Ed & Hr)].
    + rewrite Ed in Hu. cbn [app] in Hu.
      destruct (read_leading_ones 5 0 0 r _ Hwf Hu) as (r' & E & Hwf' & _ & Hu').
      { right. split; [lia|]. eauto. }
      rewrite E. cbn [bind plus Nat.eqb negb andb]. cbn [Nat.eqb tl] in Hu'.
      assert (ED : u64 last_delta = u64 delta).
      { rewrite <- (dod_restore delta last_delta). fold dod. rewrite Hd0.
        change (u64 0) with 0. rewrite Z.add_0_r.
        symmetry. apply u64_id. apply u64_range. }
      rewrite ED. unfold delta. rewrite (delta_restore t last Ht).
      erewrite IH with (k := k); eauto.
      rewrite Hu in Hf. cbn [length] in Hf. rewrite Hu'. lia.
    + assert (Hlen : (1 <= leading <= 5)%nat /\ (7 <= n)%nat).
      { in_cases Hin; lia. }
      rewrite Ed in Hu. rewrite <- !app_assoc in Hu.
      destruct (read_leading_ones 5 0 leading r _ Hwf Hu) as (r1 & E1 & Hwf1 & _ & Hu1).
      { destruct (Nat.eqb_spec leading 5); [auto|]. right. split; [lia|]. right. cbn [app]. eauto. }
      rewrite E1. cbn [bind plus].
      assert (Hu1' : unread r1 = bits_of (u64 dod) n ++ irregular_bits t delta ts ++ repeat true k).
      { rewrite Hu1. destruct (leading =? 5)%nat; reflexivity. }
      assert (Hrem : (7 <= remaining_bits r1)%nat).
      { rewrite <- unread_length, Hu1', app_length, bits_of_length. lia. }
      replace (remaining_bits r1 <? 7)%nat with false by (symmetry; apply Nat.ltb_ge; lia).
      rewrite andb_false_r.
      destruct (read_decode_correct r1 n dod (u64 last_delta)
                  (irregular_bits t delta ts ++ repeat true k)) as (r2 & E2 & Hwf2 & Hu2 & _); auto.
      { in_cases Hin; simpl; auto 10. }
      assert (EM : match leading with
            | 0%nat => Ok (u64 last_delta, r1)
            | 1%nat => read_decode_and_compute_delta r1 7 (u64 last_delta)
            | 2%nat => read_decode_and_compute_delta r1 9 (u64 last_delta)
            | 3%nat => read_decode_and_compute_delta r1 12 (u64 last_delta)
            | 4%nat => read_decode_and_compute_delta r1 32 (u64 last_delta)
            | 5%nat => read_decode_and_compute_delta r1 64 (u64 last_delta)
            | _ => Panic
            end = read_decode_and_compute_delta r1 n (u64 last_delta)).
      { in_cases Hin; reflexivity. }
      rewrite EM, E2. cbn [bind].
      unfold dod. rewrite (dod_restore delta last_delta).
      unfold delta. rewrite (delta_restore t last Ht).
      erewrite IH with (k := k); eauto.
      rewrite Hu in Hf. rewrite Hu2. fold delta. rewrite !app_length, repeat_length in Hf.
      rewrite !app_length in *. rewrite bits_of_length in Hf. lia.
Qed.

Lemma bytes_first_bit byte bytes b l :
  is_u8 byte -> bytes_bits (byte :: bytes) = b :: l -> (Z.land byte 128 =? 0) = negb b.
Proof.
  intros Hb E.
  assert (Eb : b = Z.testbit byte 7).
  { unfold bytes_bits in E. cbn [flat_map bits_of app] in E.
    change 7 with (Z.of_nat 7). congruence. }
  rewrite Eb. clear E Eb.
  assert (HL : Z.land byte 128 = Z.b2z (Z.testbit byte 7) * 128).
  { apply Z.bits_inj'. intros i Hi. rewrite Z.land_spec.
    change 128 with (2 ^ 7). rewrite Z.mul_pow2_bits by lia.
    rewrite Z.pow2_bits_eqb by lia.
    destruct (Z.eqb_spec 7 i) as [<-|].
    - rewrite Z.sub_diag, Z.b2z_bit0. apply andb_true_r.
    - rewrite andb_false_r.
      destruct (Z.lt_ge_cases i 7); [rewrite Z.testbit_neg_r by lia; reflexivity|].
      destruct (Z.testbit byte 7); cbn [Z.b2z].
      + symmetry. apply Z.bits_above_log2; simpl; lia.
      + symmetry. apply Z.bits_0. }
  rewrite HL. destruct (Z.testbit byte 7); reflexivity.
Qed.

Lemma split_middle (ts : list Z) d : (3 <= length ts)%nat ->
  ts = hd d ts :: removelast (tl ts) ++ [last ts d].
Proof.
  intros H. destruct ts as [|a [|b l]]; simpl in H; try lia.
  cbn [hd tl]. f_equal. rewrite (app_removelast_last (l := b :: l) d) at 1 by discriminate.
  reflexivity.
Qed.

Lemma irregular_round_trip ts :
  (3 <= length ts)%nat -> Forall is_i64 ts ->
  let bytes := compress_irregular_residual_timestamps ts in
  bytes <> [] /\ are_compressed_timestamps_regular bytes = false /\
  decompress_all_irregular_timestamps (hd 0 ts) (last ts 0) bytes = Ok ts.
Proof.
  intros Hlen Hts bytes.
  destruct (append_one_correct builder_new wf_builder_new) as [H1 E1].
  rewrite builder_bits_new in E1. cbn [app] in E1.
  destruct (compress_irregular_loop_correct (removelast (tl ts)) _ (hd 0 ts) 0 H1) as [H2 E2].
  rewrite E1 in E2.
  destruct (finish_with_one_bits_correct _ H2) as (Hu8 & k & Hk & E3).
  unfold compress_irregular_residual_timestamps in bytes. fold bytes in Hu8, E3.
  rewrite E2 in E3. cbn [app] in E3.
  assert (Hne : bytes <> []).
  { intros C. rewrite C in E3. discriminate. }
  split; auto. split.
  - unfold are_compressed_timestamps_regular.
    destruct bytes as [|byte bs]; [congruence|].
    inversion Hu8; subst.
    erewrite bytes_first_bit; eauto. reflexivity.
  - unfold decompress_all_irregular_timestamps.
    destruct (reader_try_new_correct bytes Hne) as (Er & Hwr & Hur).
    rewrite Er. cbn [bind]. rewrite E3 in Hur.
    destruct (read_bit_correct _ _ _ Hwr Hur) as (r & E & Hwf & Hu & Hb).
    rewrite E. cbn [bind].
    change 0 with (u64 0) at 1.
    erewrite (decompress_irregular_loop_correct (removelast (tl ts)) _ r (hd 0 ts) 0 k); auto.
    + cbn [bind]. rewrite <- (split_middle ts 0 Hlen). reflexivity.
    + apply Forall_forall. intros x Hx. rewrite Forall_forall in Hts. apply Hts.
      rewrite (split_middle ts 0 Hlen). right. apply in_or_app. auto.
    + rewrite unread_length. unfold remaining_bits. rewrite Hb. cbn [r_bytes]. lia.
Qed.

(** * Regular timestamps *)

Fixpoint arithmetic (start d : Z) (n : nat) : list Z :=
  match n with O => [] | S n => start :: arithmetic (start + d) d n end.

Lemma arithmetic_map start d n :
  arithmetic start d n = map (fun k => start + Z.of_nat k * d) (seq 0 n).
Proof.
  revert start. induction n; intros start; auto.
  cbn [arithmetic seq map]. f_equal; [lia|].
  rewrite IHn, <- seq_shift, map_map. apply map_ext. intros. lia.
Qed.

Lemma regular_loop_arithmetic e : forall ts previous,
  Forall is_i64 (previous :: ts) -> StronglySorted Z.lt (previous :: ts) ->
  regular_loop (i64 e) previous ts = true -> 0 < e < 2 ^ 64 ->
  previous :: ts = arithmetic previous e (length (previous :: ts)).
Proof.
  induction ts as [|t ts IH]; intros previous Hts Hs Hr He; auto.
  cbn [regular_loop] in Hr.
  destruct (Z.eqb_spec (i64 (t - previous)) (i64 e)) as [E|]; [|discriminate].
  inversion Hts as [|? ? Hp Hts']; subst. inversion Hts' as [|? ? Ht ?]; subst.
  inversion Hs as [|? ? Hs' Hlt]; subst. inversion Hlt as [|? ? Hpt ?]; subst.
  assert (t - previous = e).
  { destruct (i64_ex (t - previous)) as [k1 E1], (i64_ex e) as [k2 E2].
    rewrite E1, E2 in E. unfold is_i64 in *. lia. }
  cbn [length arithmetic]. f_equal. replace (previous + e) with t by lia.
  apply IH; auto.
Qed.

Lemma arithmetic_last start d n : last (arithmetic start d (S n)) 0 = start + Z.of_nat n * d.
Proof.
  revert start. induction n; intros start; [simpl; lia|].
  change (arithmetic start d (S (S n))) with (start :: arithmetic (start + d) d (S n)).
  change (last (start :: arithmetic (start + d) d (S n)) 0)
    with (last (arithmetic (start + d) d (S n)) 0).
  rewrite IHn. lia.
Qed.

Lemma from_be_bytes_app a b : from_be_bytes (a ++ [b]) = 256 * from_be_bytes a + b.
Proof. unfold from_be_bytes. rewrite fold_left_app. reflexivity. Qed.

Lemma from_be_bytes_zeros n l : from_be_bytes (repeat 0 n ++ l) = from_be_bytes l.
Proof.
  induction n; [reflexivity|exact IHn].
Qed.

Lemma from_be_bytes_cons b l :
  from_be_bytes (b :: l) = b * 256 ^ Z.of_nat (length l) + from_be_bytes l.
Proof.
  unfold from_be_bytes. cbn [fold_left].
  assert (H : forall l a, fold_left (fun acc b => 256 * acc + b) l a =
            a * 256 ^ Z.of_nat (length l) + fold_left (fun acc b => 256 * acc + b) l 0).
  { clear. induction l as [|b l IH]; intros a; cbn [fold_left length]; [lia|].
    rewrite (IH (256 * a + b)), (IH (256 * 0 + b)).
    rewrite Nat2Z.inj_succ, Z.pow_succ_r by lia. ring. }
  rewrite H. lia.
Qed.

Fixpoint descending (n : nat) : list Z :=
  match n with O => [] | S n => Z.of_nat n :: descending n end.

Lemma descending_length n : length (descending n) = n.
Proof. induction n; simpl; auto. Qed.

Lemma from_be_descending v n :
  from_be_bytes (map (fun i => Z.shiftr v (8 * i) mod 256) (descending n)) =
  v mod 256 ^ Z.of_nat n.
Proof.
  induction n.
  - simpl. rewrite Z.mod_1_r. reflexivity.
  - cbn [descending map]. rewrite from_be_bytes_cons, map_length, descending_length, IHn.
    rewrite Nat2Z.inj_succ, Z.pow_succ_r, (Z.mul_comm 256) by lia.
    rewrite Z.rem_mul_r by (try apply Z.pow_nonzero; lia).
    rewrite Z.shiftr_div_pow2 by lia. rewrite Z.pow_mul_r by lia. change (2 ^ 8) with 256. lia.
Qed.

(** Dropping leading zero bytes does not change the number. *)
Lemma be_bytes_round_trip v (n : nat) :
  (n <= 8)%nat -> 0 <= v < 256 ^ Z.of_nat n ->
  from_be_bytes (skipn (8 - n) (to_be_bytes v)) = v.
Proof.
  intros Hn Hv. unfold to_be_bytes. rewrite skipn_map.
  replace (skipn (8 - n) [7; 6; 5; 4; 3; 2; 1; 0]) with (descending n).
  - rewrite from_be_descending. apply Z.mod_small. auto.
  - do 9 (destruct n as [|n]; [reflexivity|]). lia.
Qed.

Lemma skip_to_be_bytes v (n : nat) :
  (n <= 8)%nat ->
  skipn (8 - n) (to_be_bytes v) =
  map (fun i => Z.shiftr v (8 * i) mod 256) (descending n).
Proof.
  intros Hn. unfold to_be_bytes. rewrite skipn_map. f_equal.
  do 9 (destruct n as [|n]; [reflexivity|]). lia.
Qed.

Lemma regular_bytes ts :
  (3 <= length ts)%nat -> Z.of_nat (length ts) < 2 ^ 63 ->
  let bytes := compress_regular_residual_timestamps ts in
  bytes <> [] /\ are_compressed_timestamps_regular bytes = true /\
  Forall is_u8 bytes /\ (length bytes <= 8)%nat /\
  decode_length bytes = Ok (Z.of_nat (length ts)).
Proof.
  intros H3 H63 bytes. unfold compress_regular_residual_timestamps in bytes.
  set (l := Z.of_nat (length ts)) in *.
  assert (Hl : 3 <= l) by lia. clearbody l. clear H3.
  set (n := Z.to_nat ((Z.log2 l + 1 + 1 + 7) / 8)).
  assert (Hlog : 1 <= Z.log2 l < 63).
  { split; [apply (Z.log2_le_mono 2 l); lia|]. apply Z.log2_lt_pow2; lia. }
  assert (Hn : (1 <= n <= 8)%nat).
  { unfold n. Z.div_mod_to_equations. lia. }
  assert (Hn' : Z.log2 l + 2 <= 8 * Z.of_nat n < Z.log2 l + 2 + 8).
  { unfold n. Z.div_mod_to_equations. lia. }
  assert (Eb : bytes = skipn (8 - n) (to_be_bytes l)).
  { unfold bytes. f_equal. unfold n. Z.div_mod_to_equations. lia. }
  pose proof (Z.log2_spec l ltac:(lia)) as [_ HL].
  assert (Hsmall : l < 2 ^ (8 * Z.of_nat n - 1)).
  { eapply Z.lt_le_trans; [exact HL|]. apply Z.pow_le_mono_r; lia. }
  assert (Hu8 : Forall is_u8 bytes).
  { rewrite Eb, skip_to_be_bytes by lia. apply Forall_map, Forall_forall. intros i _.
    unfold is_u8. apply (Z.mod_pos_bound _ 256). lia. }
  assert (Hlen : length bytes = n).
  { rewrite Eb, skip_to_be_bytes, map_length, descending_length by lia. reflexivity. }
  repeat split; auto.
  - intros C. rewrite C in Hlen. simpl in Hlen. lia.
  - rewrite Eb, skip_to_be_bytes by lia.
    destruct n as [|n']; [lia|]. cbn [descending map are_compressed_timestamps_regular].
    apply Z.eqb_eq.
    rewrite Z.shiftr_div_pow2 by lia.
    assert (HQ : 0 <= l / 2 ^ (8 * Z.of_nat n') < 2 ^ 7).
    { split; [apply Z.div_pos; try apply Z.pow_pos_nonneg; lia|].
      apply Z.div_lt_upper_bound; [apply Z.pow_pos_nonneg; lia|].
      rewrite <- Z.pow_add_r by lia. eapply Z.lt_le_trans; [exact Hsmall|].
      apply Z.pow_le_mono_r; lia. }
    rewrite (Z.mod_small _ 256) by lia.
    apply Z.bits_inj'. intros i Hi. rewrite Z.land_spec, Z.bits_0.
    change 128 with (2 ^ 7). rewrite Z.pow2_bits_eqb by lia.
    destruct (Z.eqb_spec 7 i) as [<-|]; [|apply andb_false_r].
    rewrite <- (Z.mod_small _ (2 ^ 7) HQ). rewrite Z.mod_pow2_bits_high by lia. reflexivity.
  - lia.
  - unfold decode_length. rewrite Hlen.
    replace (8 <? n)%nat with false by (symmetry; apply Nat.ltb_ge; lia).
    rewrite from_be_bytes_zeros, Eb, be_bytes_round_trip; auto; [lia|].
    split; [lia|]. eapply Z.lt_le_trans; [exact Hsmall|].
    change 256 with (2 ^ 8). rewrite <- Z.pow_mul_r by lia. apply Z.pow_le_mono_r; lia.
Qed.

Lemma regular_round_trip ts :
  (3 <= length ts)%nat -> Z.of_nat (length ts) < 2 ^ 63 ->
  Forall is_i64 ts -> StronglySorted Z.lt ts ->
  are_uncompressed_timestamps_regular ts = true ->
  decompress_all_regular_timestamps (hd 0 ts) (last ts 0)
    (compress_regular_residual_timestamps ts) = Ok ts.
Proof.
  intros H3 H63 Hts Hs Hr.
  destruct (regular_bytes ts H3 H63) as (_ & _ & _ & _ & E).
  unfold decompress_all_regular_timestamps. rewrite E. cbn [bind].
  destruct ts as [|t0 [|t1 ts]]; cbn [length] in H3; try lia.
  cbn [are_uncompressed_timestamps_regular tl] in Hr.
  assert (Hd : 0 < t1 - t0 < 2 ^ 64).
  { inversion Hs as [|? ? _ Hlt]; subst. inversion Hlt; subst.
    inversion Hts as [|? ? Ht0 Hts']; subst. inversion Hts'; subst. unfold is_i64 in *. lia. }
  pose proof (regular_loop_arithmetic _ _ _ Hts Hs Hr Hd) as EA.
  set (d := t1 - t0) in *. set (l := t0 :: t1 :: ts) in *.
  set (n := length l) in *.
  assert (Hn : (3 <= n)%nat) by (unfold n, l; cbn [length]; lia).
  assert (Elast : last l 0 = t0 + Z.of_nat (n - 1) * d).
  { rewrite EA. replace n with (S (n - 1)) at 1 by lia. apply arithmetic_last. }
  assert (Hin : is_i64 (last l 0)).
  { rewrite Forall_forall in Hts. apply Hts.
    rewrite (split_middle l 0) at 2 by lia.
    right. apply in_or_app. right. left. reflexivity. }
  assert (Ht0 : is_i64 t0) by (inversion Hts; auto).
  change (hd 0 l) with t0. rewrite Elast in *.
  assert (Ed1 : u64 (Z.of_nat n - 1) = Z.of_nat n - 1) by (apply u64_id; unfold is_u64; lia).
  rewrite Ed1. destruct (Z.eqb_spec (Z.of_nat n - 1) 0); [lia|].
  assert (Ed2 : u64 (t0 + Z.of_nat (n - 1) * d - t0) = (Z.of_nat n - 1) * d).
  { replace (t0 + Z.of_nat (n - 1) * d - t0) with ((Z.of_nat n - 1) * d) by lia.
    apply u64_id. unfold is_u64, is_i64 in *. nia. }
  rewrite Ed2, (Z.mul_comm (Z.of_nat n - 1) d), Z.div_mul by lia.
  unfold step_by. destruct (Z.eqb_spec d 0); [lia|].
  destruct (Z.ltb_spec (t0 + Z.of_nat (n - 1) * d) t0); [nia|].
  f_equal. rewrite EA, arithmetic_map. f_equal. f_equal.
  replace (t0 + Z.of_nat (n - 1) * d - t0) with (Z.of_nat (n - 1) * d) by lia.
  rewrite Z.div_mul by lia. lia.
Qed.

(** * All timestamps *)

Lemma timestamps_round_trip ts :
  valid_timestamps ts ->
  decompress_all_timestamps (first_timestamp ts) (last_timestamp ts)
    (compress_residual_timestamps ts) = Ok ts.
Proof.
  intros (Hne & Hts & Hs & H63). unfold first_timestamp, last_timestamp.
  unfold compress_residual_timestamps.
  destruct (Nat.leb_spec (length ts) 2) as [H2|H2].
  - destruct ts as [|a [|b [|c ts]]]; cbn [length] in H2; try lia; try congruence.
    + cbn [hd last decompress_all_timestamps]. rewrite Z.eqb_refl. reflexivity.
    + cbn [hd last decompress_all_timestamps].
      inversion Hs as [|? ? _ Hlt]; subst. inversion Hlt; subst.
      destruct (Z.eqb_spec a b); [lia|reflexivity].
  - destruct (are_uncompressed_timestamps_regular ts) eqn:Er.
    + destruct (regular_bytes ts ltac:(lia) H63) as (Hb & Hf & _).
      pose proof (regular_round_trip ts ltac:(lia) H63 Hts Hs Er) as E.
      destruct (compress_regular_residual_timestamps ts); [congruence|].
      unfold decompress_all_timestamps. rewrite Hf. exact E.
    + destruct (irregular_round_trip ts ltac:(lia) Hts) as (Hb & Hf & E).
      destruct (compress_irregular_residual_timestamps ts); [congruence|].
      unfold decompress_all_timestamps. rewrite Hf. exact E.
Qed.

Lemma compressed_timestamps_bytes ts :
  valid_timestamps ts -> Forall is_u8 (compress_residual_timestamps ts).
Proof.
  intros (Hne & Hts & Hs & H63). unfold compress_residual_timestamps.
  destruct (Nat.leb_spec (length ts) 2) as [H2|H2]; [constructor|].
  destruct (are_uncompressed_timestamps_regular ts) eqn:Er.
  - destruct (regular_bytes ts ltac:(lia) H63) as (_ & _ & H & _). auto.
  - unfold compress_irregular_residual_timestamps.
    apply finish_with_one_bits_correct. apply compress_irregular_loop_correct.
    apply append_one_correct. apply wf_builder_new.
Qed.

Lemma len_correct ts :
  valid_timestamps ts ->
  len (first_timestamp ts) (last_timestamp ts) (compress_residual_timestamps ts) =
    Ok (Z.of_nat (length ts)).
Proof.
  intros HV. pose proof (timestamps_round_trip ts HV) as RT.
  destruct HV as (Hne & Hts & Hs & H63).
  unfold first_timestamp, last_timestamp in *.
  unfold compress_residual_timestamps in *.
  destruct (Nat.leb_spec (length ts) 2) as [H2|H2].
  - destruct ts as [|a [|b [|c ts]]]; cbn [length] in H2; try lia; try congruence.
    + cbn [hd last len]. rewrite Z.eqb_refl. reflexivity.
    + cbn [hd last len].
      inversion Hs as [|? ? _ Hlt]; subst. inversion Hlt; subst.
      destruct (Z.eqb_spec a b); [lia|reflexivity].
  - destruct (are_uncompressed_timestamps_regular ts) eqn:Er.
    + destruct (regular_bytes ts ltac:(lia) H63) as (Hb & Hf & _ & _ & E).
      unfold len. rewrite Hf.
      destruct (compress_regular_residual_timestamps ts); [congruence|]. auto.
    + destruct (irregular_round_trip ts ltac:(lia) Hts) as (Hb & Hf & E).
      unfold len. rewrite Hf, RT.
      destruct (compress_irregular_residual_timestamps ts); [congruence|]. reflexivity.
Qed.

