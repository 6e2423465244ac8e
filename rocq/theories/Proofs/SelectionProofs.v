(** Lemmas about the bytes per value of models. *)
From Coq Require Import ZArith Reals Psatz Lra Bool Lia List.
From Flocq Require Import Core IEEE754.BinarySingleNaN IEEE754.Binary.
From Verif Require Import Model.Base Model.Float Model.ErrorBound Model.Pmc Model.Swing Model.Segments
  Spec.ErrorBoundSpec Spec.PmcSpec Spec.SwingSpec Spec.SegmentsSpec
  Proofs.FloatProofs Proofs.ErrorBoundProofs Proofs.MacaqueVProofs Proofs.SegmentsProofs.
Import ListNotations.
Open Scope R_scope.

Lemma f32_of_Z_correct : forall z, (Z.abs z <= 2 ^ 63)%Z ->
  finite32 (f32_of_Z z) /\ R32 (f32_of_Z z) = rnd32 (IZR z).
Proof.
  intros z Hz. unfold f32_of_Z.
  generalize (binary_normalize_correct 24 128 eq_refl eq_refl mode_NE z 0 false).
  change (SpecFloat.fexp 24 128) with fexp32. change (round_mode mode_NE) with ZnearestE.
  replace (F2R {| Fnum := z; Fexp := 0 |}) with (IZR z)
    by (unfold F2R; cbn [Fnum Fexp bpow]; ring).
  fold (rnd32 (IZR z)). rewrite Rlt_bool_true.
  - intros (H1 & H2 & _). split; assumption.
  - apply Rle_lt_trans with (bpow radix2 63); [|now apply bpow_lt].
    apply abs_round_le_generic; try typeclasses eauto.
    + apply generic_format_bpow. unfold FLT_exp. lia.
    + rewrite <- abs_IZR. change (bpow radix2 63) with (IZR (2 ^ 63)). now apply IZR_le.
Qed.

Lemma rnd32_IZR : forall z, (Z.abs z <= 2 ^ 24)%Z -> rnd32 (IZR z) = IZR z.
Proof. intros z Hz. apply round_generic; [typeclasses eauto|]. now apply format32_IZR. Qed.

Lemma rnd32_ge_IZR : forall z x, (Z.abs z <= 2 ^ 24)%Z -> IZR z <= x -> IZR z <= rnd32 x.
Proof. intros z x Hz H. rewrite <- (rnd32_IZR z Hz). now apply rnd32_le. Qed.
Lemma rnd32_le_IZR : forall z x, (Z.abs z <= 2 ^ 24)%Z -> x <= IZR z -> rnd32 x <= IZR z.
Proof. intros z x Hz H. rewrite <- (rnd32_IZR z Hz). now apply rnd32_le. Qed.

Lemma div_le : forall a b c, 0 < b -> a <= c * b -> a / b <= c.
Proof.
  intros a b c Hb H. apply Rmult_le_reg_r with b; [exact Hb|].
  unfold Rdiv. rewrite Rmult_assoc, Rinv_l by lra. lra.
Qed.
Lemma div_pos : forall a b, 0 < a -> 0 < b -> 0 < a / b.
Proof. intros. now apply Rdiv_lt_0_compat. Qed.

Lemma bytes_real : forall c k n, finite32 c -> R32 c = IZR k -> (1 <= k <= 30)%Z ->
  (1 <= n < 2 ^ 63)%Z ->
  finite32 (f32_div c (f32_of_Z n))
  /\ R32 (f32_div c (f32_of_Z n)) = rnd32 (IZR k / rnd32 (IZR n)).
Proof.
  intros c k n Hc Hk Hk30 Hn. destruct (f32_of_Z_correct n ltac:(lia)) as [Hf Hr].
  assert (H1 : 1 <= rnd32 (IZR n)) by (apply rnd32_ge_IZR; [lia|apply IZR_le; lia]).
  assert (Hk1 : 1 <= IZR k <= 30) by (split; apply IZR_le; lia).
  destruct (f32_div_correct c (f32_of_Z n) Hc) as [H _]; [rewrite Hr; lra|].
  rewrite <- Hr, <- Hk. apply H. rewrite Hk, Hr.
  assert (H0 : 0 <= rnd32 (IZR k / rnd32 (IZR n))).
  { apply (rnd32_ge_IZR 0); [lia|]. apply Rlt_le, div_pos; lra. }
  rewrite Rabs_pos_eq by exact H0.
  apply Rle_lt_trans with 30.
  - apply (rnd32_le_IZR 30); [lia|]. apply div_le; lra.
  - apply Rlt_trans with (bpow radix2 5); [|now apply bpow_lt]. change (bpow radix2 5) with 32. lra.
Qed.

Lemma pmc_cost : finite32 (f32_of_Z compressed_metadata_size_in_bytes)
  /\ R32 (f32_of_Z compressed_metadata_size_in_bytes) = 29.
Proof. apply f32_of_Z_exact. unfold compressed_metadata_size_in_bytes. lia. Qed.
Lemma swing_cost :
  let c := f32_add (f32_of_Z compressed_metadata_size_in_bytes) (f32_of_Z 1) in
  finite32 c /\ R32 c = 30.
Proof.
  cbv zeta.
  assert (E : f32_add (f32_of_Z compressed_metadata_size_in_bytes) (f32_of_Z 1) = f32_of_Z 30).
  { rewrite <- (from_to_bits (f32_add _ _)), <- (from_to_bits (f32_of_Z 30)).
    apply f_equal. vm_compute. reflexivity. }
  rewrite E. apply f32_of_Z_exact. lia.
Qed.

Lemma pmc_bytes_real : forall n, (1 <= n)%nat -> (Z.of_nat n < 2 ^ 63)%Z ->
  finite32 (pmc_bytes_per_value n)
  /\ R32 (pmc_bytes_per_value n) = rnd32 (29 / rnd32 (IZR (Z.of_nat n))).
Proof.
  intros n H1 H2. destruct pmc_cost as [Hc Hk]. unfold pmc_bytes_per_value.
  apply (bytes_real _ 29); try assumption; lia.
Qed.
Lemma swing_bytes_real : forall n, (1 <= n)%nat -> (Z.of_nat n < 2 ^ 63)%Z ->
  finite32 (swing_bytes_per_value n)
  /\ R32 (swing_bytes_per_value n) = rnd32 (30 / rnd32 (IZR (Z.of_nat n))).
Proof.
  intros n H1 H2. destruct swing_cost as [Hc Hk]. unfold swing_bytes_per_value.
  apply (bytes_real _ 30); try assumption; lia.
Qed.

(** Models of at least 8 values are kept. *)
Lemma bytes_kept : forall n, (8 <= n)%nat -> (Z.of_nat n < 2 ^ 63)%Z ->
  f32_le (pmc_bytes_per_value n) value_size_in_bytes_f32 = true
  /\ f32_le (swing_bytes_per_value n) value_size_in_bytes_f32 = true.
Proof.
  intros n H1 H2. destruct (f32_of_Z_exact 4 ltac:(lia)) as [F4 R4].
  assert (H8 : 8 <= rnd32 (IZR (Z.of_nat n))) by (apply rnd32_ge_IZR; [lia|apply IZR_le; lia]).
  split; apply f32_le_iff; try exact F4.
  - apply (pmc_bytes_real n); lia.
  - unfold value_size_in_bytes_f32. rewrite R4. destruct (pmc_bytes_real n ltac:(lia) H2) as [_ ->].
    apply (rnd32_le_IZR 4); [lia|]. apply div_le; lra.
  - apply (swing_bytes_real n); lia.
  - unfold value_size_in_bytes_f32. rewrite R4. destruct (swing_bytes_real n ltac:(lia) H2) as [_ ->].
    apply (rnd32_le_IZR 4); [lia|]. apply div_le; lra.
Qed.

(** Linear functions are selected if they use fewer bytes per value, up to 65,536 values. *)
Lemma swing_cheaper : forall np ns, (1 <= Z.of_nat np <= 65536)%Z -> (1 <= Z.of_nat ns <= 65536)%Z ->
  f32_lt (swing_bytes_per_value ns) (pmc_bytes_per_value np) = true
  <-> (30 * np < 29 * ns)%nat.
Proof.
  intros np ns Hp Hs.
  destruct (pmc_bytes_real np ltac:(lia) ltac:(lia)) as [Fp Rp].
  destruct (swing_bytes_real ns ltac:(lia) ltac:(lia)) as [Fs Rs].
  rewrite f32_lt_iff by assumption. rewrite Rp, Rs.
  rewrite !rnd32_IZR by lia.
  assert (Np : 1 <= IZR (Z.of_nat np) <= 65536) by (split; apply IZR_le; lia).
  assert (Ns : 1 <= IZR (Z.of_nat ns) <= 65536) by (split; apply IZR_le; lia).
  set (p := IZR (Z.of_nat np)) in *. set (s := IZR (Z.of_nat ns)) in *.
  split.
  - intros H. destruct (lt_dec (30 * np) (29 * ns)) as [Hlt|Hge]; [exact Hlt|]. exfalso.
    assert (Hge' : 29 * s <= 30 * p).
    { unfold s, p. rewrite <- !mult_IZR. apply IZR_le. lia. }
    assert (29 / p <= 30 / s).
    { apply div_le; [lra|]. unfold Rdiv. rewrite Rmult_assoc, (Rmult_comm (/ s)), <- Rmult_assoc.
      apply Rmult_le_reg_r with s; [lra|]. rewrite Rmult_assoc, Rinv_l by lra. lra. }
    apply rnd32_le in H0. lra.
  - intros H.
    assert (H' : 30 * p + 1 <= 29 * s).
    { unfold s, p. rewrite <- !mult_IZR, <- plus_IZR. apply IZR_le. lia. }
    assert (Hx : 30 / s <= 29 / p * (1 - / 2097152)).
    { apply div_le; [lra|].
      replace (29 / p * (1 - / 2097152) * s) with ((29 * s) * (1 - / 2097152) * / p)
        by (unfold Rdiv; ring).
      apply Rmult_le_reg_r with p; [lra|]. rewrite Rmult_assoc, Rinv_l by lra. lra. }
    assert (P1 : 0 < 29 / p) by (apply div_pos; lra).
    assert (S1 : 0 < 30 / s) by (apply div_pos; lra).
    assert (Hsmall : forall a b, 29 <= a -> 1 <= b <= 65536 -> bpow radix2 (-126) <= Rabs (a / b)).
    { intros a b Ha Hb. rewrite Rabs_pos_eq by (apply Rlt_le, div_pos; lra).
      apply Rle_trans with (/ 65536).
      - change (/ 65536) with (bpow radix2 (-16)). apply bpow_le. lia.
      - apply Rle_trans with (29 * / 65536); [lra|]. unfold Rdiv.
        apply Rmult_le_compat; try lra. apply Rinv_le; lra. }
    pose proof (rnd32_error (29 / p) (Hsmall 29 p ltac:(lra) Np)) as E1.
    pose proof (rnd32_error (30 / s) (Hsmall 30 s ltac:(lra) Ns)) as E2.
    rewrite (Rabs_pos_eq (29 / p)) in E1 by lra. rewrite (Rabs_pos_eq (30 / s)) in E2 by lra.
    apply Rabs_le_inv in E1. apply Rabs_le_inv in E2.
    unfold u32r in *. set (x := 29 / p) in *. set (y := 30 / s) in *. lra.
Qed.

Lemma swing_first_accepted : forall P eb points ns ms, points <> [] ->
  longest (fun l => swing_fit_data_points P (swing_new (f64_num P) eb) l) points ns ms -> (1 <= ns)%nat.
Proof.
  intros P eb points ns ms Hne (H1 & H2 & H3). destruct ns as [|ns]; [|lia]. exfalso.
  destruct points as [|[t v] points]; [congruence|].
  specialize (H3 1%nat ltac:(cbn [length]; lia)). cbn [firstn swing_fit_data_points] in H3.
  unfold swing_fit_data_point, swing_fit in H3. cbn [sw_length swing_new Nat.eqb] in H3. discriminate.
Qed.

Lemma pmc_zero_infinite : forall n, (1 <= n)%nat -> (Z.of_nat n < 2 ^ 63)%Z ->
  f32_lt (swing_bytes_per_value n) (pmc_bytes_per_value 0) = true.
Proof.
  intros n H1 H2. destruct (swing_bytes_real n H1 H2) as [Hf _].
  assert (E : pmc_bytes_per_value 0 = B754_infinity 24 128 false) by (vm_compute; reflexivity).
  rewrite E. destruct (swing_bytes_per_value n) as [s|s|s pl Hpl|s m e H]; try discriminate Hf; reflexivity.
Qed.

(** The model that is selected and whether it is kept, on integers. *)
Lemma selection : forall P eb c points, (c < length points)%nat ->
  (Z.of_nat (length points) < 2 ^ 63)%Z ->
  exists np mp ns ms,
    longest (fun l => pmc_fit_all P (pmc_new eb) (map snd l)) (skipn c points) np mp
    /\ longest (fun l => swing_fit_data_points P (swing_new (f64_num P) eb) l) (skipn c points) ns ms
    /\ let chosen := fit_next_model P c eb points in
       (chosen = select_swing P c ms /\ sb_end_index chosen = (c + ns - 1)%nat
        /\ ((Z.of_nat np <= 65536)%Z -> (Z.of_nat ns <= 65536)%Z -> (30 * np < 29 * ns)%nat)
        /\ (f32_le (sb_bytes_per_value chosen) value_size_in_bytes_f32 = true <-> (8 <= ns)%nat))
       \/ (chosen = select_pmc_mean c mp /\ sb_end_index chosen = (c + np - 1)%nat
           /\ ((Z.of_nat np <= 65536)%Z -> (Z.of_nat ns <= 65536)%Z -> (29 * ns <= 30 * np)%nat)
           /\ (f32_le (sb_bytes_per_value chosen) value_size_in_bytes_f32 = true <-> (8 <= np)%nat)).
Proof.
  intros P eb c points Hc Hl.
  destruct (fit_next_model_spec P eb c points) as (np & mp & ns & ms & Hp & Hs & Np & Ns & E).
  exists np, mp, ns, ms. split; [exact Hp|]. split; [exact Hs|]. cbv zeta.
  assert (Hns : (1 <= ns)%nat).
  { eapply swing_first_accepted; [|exact Hs]. intros H0. apply (f_equal (@length _)) in H0.
    rewrite skipn_length in H0. cbn [length] in H0. lia. }
  assert (Hnp63 : (Z.of_nat np < 2 ^ 63)%Z).
  { destruct Hp as [H0 _]. rewrite skipn_length in H0. lia. }
  assert (Hns63 : (Z.of_nat ns < 2 ^ 63)%Z).
  { destruct Hs as [H0 _]. rewrite skipn_length in H0. lia. }
  rewrite E. destruct (f32_lt (swing_bytes_per_value ns) (pmc_bytes_per_value np)) eqn:Elt.
  - left. split; [reflexivity|]. split; [|split].
    + unfold select_swing. destruct (swing_model P ms). cbn [sb_end_index]. now rewrite Ns.
    + intros H1 H2. destruct np as [|np]; [lia|]. apply swing_cheaper; [lia|lia|exact Elt].
    + unfold select_swing. destruct (swing_model P ms). cbn [sb_bytes_per_value]. rewrite Ns. split.
      * apply swing_bytes_small.
      * intros H. now apply bytes_kept.
  - right. destruct np as [|np]; [rewrite pmc_zero_infinite in Elt by lia; discriminate|].
    split; [reflexivity|]. split; [|split].
    + cbn [select_pmc_mean sb_end_index]. now rewrite Np.
    + intros H1 H2. destruct (le_lt_dec (29 * ns) (30 * S np)) as [H|H]; [exact H|]. exfalso.
      apply (swing_cheaper (S np) ns) in H; [congruence|lia|lia].
    + cbn [select_pmc_mean sb_bytes_per_value]. rewrite Np. split.
      * apply pmc_bytes_small.
      * intros H. now apply bytes_kept.
Qed.
