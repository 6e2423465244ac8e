(** Aggregates computed from segments are those of the decompressed values. *)
From Coq Require Import ZArith Reals Bool Lia Lra List.
From Flocq Require Import Core Plus_error Relative IEEE754.BinarySingleNaN IEEE754.Binary IEEE754.Bits.
From Verif Require Import Model.Base Model.Float Model.ErrorBound Model.Timestamps
  Model.MacaqueV Model.Pmc Model.Segments Model.Aggregates
  Spec.ErrorBoundSpec Spec.PlatformSpec Spec.SegmentsSpec Spec.GridSpec Spec.AggregateSpec
  Proofs.FloatProofs Proofs.ErrorBoundProofs Proofs.OrderProofs Proofs.ParameterProofs
  Proofs.SelectionProofs Proofs.RestoreProofs Proofs.AggregateProofs.
Import ListNotations.
Open Scope Z_scope.

(** ** Count *)
Lemma created_grid : forall P s, good_log2 P -> ties_first P -> created P s ->
  exists ts out, grid P s = Ok (ts, out) /\ segment_len s = Ok (Z.of_nat (length out)).
Proof.
  intros P s HP HT Hc. destruct (created_part P s Hc) as (eb & pts & Hp).
  destruct (part_shape P eb s pts HP HT Hp) as [Hl _].
  destruct Hp as (He & Hrel & Hre & Hnan & Hv & Hspan & Hb).
  destruct (built_restores P eb s pts HP HT He Hrel Hre Hnan Hv Hspan Hb) as (out & E & L & _).
  exists (map fst pts), out. now rewrite L.
Qed.

Lemma count_correct : forall P segments, good_log2 P -> ties_first P -> Forall (created P) segments ->
  exists restored, decompressed P segments restored
    /\ forall acc, 0 <= acc -> acc + Z.of_nat (length restored) < 2 ^ 63 ->
       model_count acc segments = Ok (acc + Z.of_nat (length restored)).
Proof.
  intros P segments HP HT H. induction H as [|s segments Hs H IH].
  - exists []. split; [exists []; split; [constructor|reflexivity]|]. intros acc _ _. cbn.
    now rewrite Z.add_0_r.
  - destruct IH as (restored & (parts & F & E) & IH).
    destruct (created_grid P s HP HT Hs) as (ts & out & G & L).
    exists (out ++ restored). split.
    { exists (out :: parts). split; [constructor; [eauto|exact F]|]. cbn [concat]. now rewrite E. }
    intros acc Ha Hb. rewrite app_length in *. cbn [model_count]. rewrite L. cbn [bind].
    replace (i64 (acc + Z.of_nat (length out))) with (acc + Z.of_nat (length out)).
    2:{ unfold i64. rewrite Z.mod_small; lia. }
    rewrite IH by lia. f_equal. lia.
Qed.

(** ** Minimum and maximum *)
Lemma fold_min_in : forall P l x, f32_is_nan x = false -> Forall (fun x => f32_is_nan x = false) l ->
  let m := fold_left (f32_min P) l x in
  In m (x :: l) /\ f32_is_nan m = false /\ forall y, In y (x :: l) -> f32_le m y = true.
Proof.
  intros P. induction l as [|y l IH]; intros x Hx Hl; cbv zeta; cbn [fold_left].
  - split; [now left|]. split; [exact Hx|]. intros y [<-|[]]. now apply f32_le_refl.
  - apply Forall_cons_iff in Hl. destruct Hl as [Hy Hl].
    destruct (f32_min_cases P x y Hx Hy) as (C1 & C2 & C3 & C4).
    destruct (IH (f32_min P x y) C4 Hl) as (I1 & I2 & I3).
    split; [|split; [exact I2|]].
    + destruct I1 as [<-|I1]; [|now right; right]. destruct C1 as [->| ->]; [now left|now right; left].
    + assert (Hm := I3 _ (or_introl eq_refl)).
      intros z [<-|[<-|Hz]].
      * eapply f32_le_trans; eauto.
      * eapply f32_le_trans; eauto.
      * apply I3. now right.
Qed.

Lemma fold_max_in : forall P l x, f32_is_nan x = false -> Forall (fun x => f32_is_nan x = false) l ->
  let m := fold_left (f32_max P) l x in
  In m (x :: l) /\ f32_is_nan m = false /\ forall y, In y (x :: l) -> f32_le y m = true.
Proof.
  intros P. induction l as [|y l IH]; intros x Hx Hl; cbv zeta; cbn [fold_left].
  - split; [now left|]. split; [exact Hx|]. intros y [<-|[]]. now apply f32_le_refl.
  - apply Forall_cons_iff in Hl. destruct Hl as [Hy Hl].
    destruct (f32_max_cases P x y Hx Hy) as (C1 & C2 & C3 & C4).
    destruct (IH (f32_max P x y) C4 Hl) as (I1 & I2 & I3).
    split; [|split; [exact I2|]].
    + destruct I1 as [<-|I1]; [|now right; right]. destruct C1 as [->| ->]; [now left|now right; left].
    + assert (Hm := I3 _ (or_introl eq_refl)).
      intros z [<-|[<-|Hz]].
      * eapply f32_le_trans; eauto.
      * eapply f32_le_trans; eauto.
      * apply I3. now right.
Qed.

Lemma shape_min : forall P s out, shape P s out ->
  (In (sg_min s) out /\ f32_is_nan (sg_min s) = false /\ forall y, In y out -> f32_le (sg_min s) y = true)
  /\ (In (sg_max s) out /\ f32_is_nan (sg_max s) = false /\ forall y, In y out -> f32_le y (sg_max s) = true).
Proof.
  intros P s out [v n rs Hn _ Hv Hrs E1 E2 _|v rs Hv Hrs E1 E2 _].
  - rewrite E1, E2. clear E1 E2.
    assert (Hin : In v (repeat v n)) by (destruct n; [lia|now left]).
    assert (Hrep : forall y, In y (repeat v n) -> y = v) by (apply repeat_spec).
    destruct rs as [|r rs].
    + cbn [fold_left]. rewrite (f32_min_nan_r P v f32_nan Hv eq_refl), (f32_max_nan_r P v f32_nan Hv eq_refl).
      rewrite app_nil_r. repeat split; auto; intros y Hy; rewrite (Hrep y Hy); now apply f32_le_refl.
    + cbn [fold_left]. rewrite (f32_min_nan_l P f32_nan r eq_refl), (f32_max_nan_l P f32_nan r eq_refl).
      apply Forall_cons_iff in Hrs. destruct Hrs as [Hr Hrs].
      destruct (fold_min_in P rs r Hr Hrs) as (I1 & I2 & I3).
      destruct (fold_max_in P rs r Hr Hrs) as (J1 & J2 & J3).
      set (m := fold_left (f32_min P) rs r) in *. set (M := fold_left (f32_max P) rs r) in *.
      destruct (f32_min_cases P v m Hv I2) as (C1 & C2 & C3 & C4).
      destruct (f32_max_cases P v M Hv J2) as (D1 & D2 & D3 & D4).
      split; (split; [|split; [assumption|]]).
      * apply in_or_app. destruct C1 as [->| ->]; auto.
      * intros y Hy. apply in_app_or in Hy. destruct Hy as [Hy|Hy].
        -- now rewrite (Hrep y Hy).
        -- eapply f32_le_trans; [exact C3|]. now apply I3.
      * apply in_or_app. destruct D1 as [->| ->]; auto.
      * intros y Hy. apply in_app_or in Hy. destruct Hy as [Hy|Hy].
        -- now rewrite (Hrep y Hy).
        -- eapply f32_le_trans; [|exact D3]. now apply J3.
  - rewrite E1, E2. split; [now apply fold_min_in|now apply fold_max_in].
Qed.

(** The shapes of segments without lines. *)
Definition shapes (P : platform) (segments : list segment) (parts : list (list f32)) : Prop :=
  Forall2 (fun s out => (exists ts, grid P s = Ok (ts, out)) /\ shape P s out
                        /\ segment_len s = Ok (Z.of_nat (length out))) segments parts.

Lemma created_shapes : forall P segments, good_log2 P -> ties_first P ->
  Forall (fun s => created P s /\ sg_model_type_id s <> swing_id) segments ->
  exists parts, shapes P segments parts.
Proof.
  intros P segments HP HT H. induction H as [|s segments [Hs Ht] H (parts & IH)].
  - exists []. constructor.
  - destruct (created_part P s Hs) as (eb & pts & Hp).
    destruct (part_shape P eb s pts HP HT Hp) as [Hl Hx]. destruct (Hx Ht) as (out & E & L & Hsh).
    exists (out :: parts). constructor; [|exact IH]. split; [eauto|]. split; [exact Hsh|]. now rewrite L.
Qed.

Lemma shapes_decompressed : forall P segments parts, shapes P segments parts ->
  decompressed P segments (concat parts).
Proof.
  intros P segments parts H. exists parts. split; [|reflexivity].
  induction H as [|s out segments parts (H1 & _) H IH]; constructor; auto.
Qed.

Lemma same_of_le : forall x y, finite32 y -> f32_le x y = true -> f32_le y x = true -> same_number x y.
Proof.
  intros x y Hy H1 H2. destruct (f32_between_finite y x y Hy Hy H2 H1) as [Hf [E1 E2]].
  left. split; [exact Hf|]. split; [exact Hy|]. lra.
Qed.

Lemma max_value_finite : finite32 f32_max_value.
Proof. vm_compute. reflexivity. Qed.
Lemma min_value_finite : finite32 f32_min_value.
Proof. vm_compute. reflexivity. Qed.

Lemma finite_not_nan : forall x, finite32 x -> f32_is_nan x = false.
Proof. intros x H. destruct (f32_is_nan x) eqn:E; [|reflexivity]. now apply nan_not_finite in E. Qed.

Lemma same_number_refl : forall x, f32_is_nan x = false -> same_number x x.
Proof.
  intros x H. destruct (finite_or_not x) as [Hf|[Hi|Hn]]; [| |congruence].
  - left. auto.
  - right. left. auto.
Qed.

Lemma concat_map_mins : forall P segments parts, shapes P segments parts ->
  Forall (fun x => f32_is_nan x = false) (map sg_min segments)
  /\ Forall (fun x => f32_is_nan x = false) (map sg_max segments)
  /\ (forall x, In x (concat parts) ->
      (exists m, In m (map sg_min segments) /\ f32_le m x = true)
      /\ (exists m, In m (map sg_max segments) /\ f32_le x m = true))
  /\ (forall m, In m (map sg_min segments) -> In m (concat parts))
  /\ (forall m, In m (map sg_max segments) -> In m (concat parts)).
Proof.
  intros P segments parts H. induction H as [|s out segments parts (_ & Hsh & _) H IH].
  - repeat split; try constructor; cbn in *; contradiction.
  - destruct IH as (I1 & I2 & I3 & I4 & I5).
    destruct (shape_min P s out Hsh) as [(A1 & A2 & A3) (B1 & B2 & B3)].
    cbn [map concat]. split; [now constructor|]. split; [now constructor|].
    split; [|split].
    + intros x Hx. apply in_app_or in Hx. destruct Hx as [Hx|Hx].
      * split; [exists (sg_min s)|exists (sg_max s)]; (split; [now left|auto]).
      * destruct (I3 x Hx) as [(m & M1 & M2) (m' & M3 & M4)].
        split; [exists m|exists m']; (split; [now right|assumption]).
    + intros m [<-|Hm]; apply in_or_app; auto.
    + intros m [<-|Hm]; apply in_or_app; auto.
Qed.

Lemma fold_left_map : forall (A B C : Type) (f : A -> B -> A) (g : C -> B) l a,
  fold_left (fun a c => f a (g c)) l a = fold_left f (map g l) a.
Proof. intros A B C f g. induction l as [|c l IH]; intros a; cbn [fold_left map]; auto. Qed.

Lemma min_max_correct : forall P segments, good_log2 P -> ties_first P ->
  Forall (fun s => created P s /\ sg_model_type_id s <> swing_id) segments ->
  exists restored, decompressed P segments restored
    /\ ((exists x, In x restored /\ f32_le x f32_max_value = true) ->
        least (model_min P segments) restored)
    /\ ((exists x, In x restored /\ f32_le f32_min_value x = true) ->
        greatest (model_max P segments) restored).
Proof.
  intros P segments HP HT H. destruct (created_shapes P segments HP HT H) as (parts & Hs).
  exists (concat parts). split; [now apply shapes_decompressed|].
  destruct (concat_map_mins P segments parts Hs) as (I1 & I2 & I3 & I4 & I5).
  unfold model_min, model_max.
  rewrite (fold_left_map _ _ _ (f32_min P) sg_min), (fold_left_map _ _ _ (f32_max P) sg_max). split.
  - intros (x & Hx & Hle).
    destruct (fold_min_in P (map sg_min segments) f32_max_value
                (finite_not_nan _ max_value_finite) I1) as (J1 & J2 & J3).
    set (m := fold_left (f32_min P) (map sg_min segments) f32_max_value) in *.
    assert (Hall : forall y, In y (concat parts) -> f32_le m y = true).
    { intros y Hy. destruct (I3 y Hy) as [(z & Z1 & Z2) _]. eapply f32_le_trans; [|exact Z2].
      apply J3. now right. }
    split; [|exact Hall]. destruct J1 as [J1|J1].
    + exists x. split; [exact Hx|]. rewrite <- J1 in *.
      apply same_of_le; auto. exact max_value_finite.
    + exists m. split; [now apply I4|]. now apply same_number_refl.
  - intros (x & Hx & Hle).
    destruct (fold_max_in P (map sg_max segments) f32_min_value
                (finite_not_nan _ min_value_finite) I2) as (J1 & J2 & J3).
    set (m := fold_left (f32_max P) (map sg_max segments) f32_min_value) in *.
    assert (Hall : forall y, In y (concat parts) -> f32_le y m = true).
    { intros y Hy. destruct (I3 y Hy) as [_ (z & Z1 & Z2)]. eapply f32_le_trans; [exact Z2|].
      apply J3. now right. }
    split; [|exact Hall]. destruct J1 as [J1|J1].
    + exists x. split; [exact Hx|]. rewrite <- J1 in *.
      apply same_of_le; auto. exact min_value_finite.
    + exists m. split; [now apply I5|]. now apply same_number_refl.
Qed.

(** ** Sums *)
Open Scope R_scope.

Lemma rnd32_small : forall x, Rabs x <= bpow radix2 127 -> Rabs (rnd32 x) < bpow radix2 128.
Proof.
  intros x H. apply Rle_lt_trans with (bpow radix2 127); [|now apply bpow_lt].
  apply abs_round_le_generic; try typeclasses eauto.
  - apply generic_format_bpow. unfold FLT_exp. lia.
  - exact H.
Qed.

Lemma f32_add_error : forall x y, finite32 x -> finite32 y -> Rabs (R32 x + R32 y) <= bpow radix2 127 ->
  finite32 (f32_add x y) /\ Rabs (R32 (f32_add x y) - (R32 x + R32 y)) <= unit32 * Rabs (R32 x + R32 y).
Proof.
  intros x y Hx Hy Hb.
  assert (Hc : finite32 (f32_add x y) /\ R32 (f32_add x y) = rnd32 (R32 x + R32 y)).
  { unfold f32_add, b32_plus.
    generalize (Bplus_correct 24 128 eq_refl eq_refl binop_nan_pl32 mode_NE x y Hx Hy).
    change (SpecFloat.fexp 24 128) with fexp32. change (round_mode mode_NE) with ZnearestE.
    fold (R32 x) (R32 y). fold (rnd32 (R32 x + R32 y)). rewrite Rlt_bool_true by (now apply rnd32_small).
    intros (H1 & H2 & _). split; assumption. }
  destruct Hc as [H1 H2]. split; [exact H1|]. rewrite H2.
  destruct (FLT_plus_error_N_ex radix2 (-149) 24 (fun n => negb (Z.even n)) (R32 x) (R32 y))
    as (eps & He & Hr); [apply format32|apply format32|].
  fold (rnd32 (R32 x + R32 y)) in Hr. rewrite Hr.
  replace ((R32 x + R32 y) * (1 + eps) - (R32 x + R32 y)) with (eps * (R32 x + R32 y)) by ring.
  rewrite Rabs_mult. apply Rmult_le_compat_r; [apply Rabs_pos|].
  eapply Rle_trans; [exact He|]. change (u_ro radix2 24) with (/ 2 * bpow radix2 (-24 + 1)).
  rewrite u32r_bpow. unfold u32r, unit32. lra.
Qed.

Lemma f64_add_error : forall x y, finite64 x -> finite64 y -> Rabs (R64 x + R64 y) <= bpow radix2 127 ->
  finite64 (f64_add x y) /\ Rabs (R64 (f64_add x y) - (R64 x + R64 y)) <= unit32 * Rabs (R64 x + R64 y).
Proof.
  intros x y Hx Hy Hb.
  assert (Hs : Rabs (rnd64 (R64 x + R64 y)) < bpow radix2 1024).
  { apply Rle_lt_trans with (bpow radix2 127); [|now apply bpow_lt].
    apply abs_round_le_generic; try typeclasses eauto.
    - apply generic_format_bpow. unfold FLT_exp. lia.
    - exact Hb. }
  assert (Hc : finite64 (f64_add x y) /\ R64 (f64_add x y) = rnd64 (R64 x + R64 y)).
  { unfold f64_add, b64_plus.
    generalize (Bplus_correct 53 1024 eq_refl eq_refl binop_nan_pl64 mode_NE x y Hx Hy).
    change (SpecFloat.fexp 53 1024) with fexp64. change (round_mode mode_NE) with ZnearestE.
    fold (R64 x) (R64 y). fold (rnd64 (R64 x + R64 y)). rewrite Rlt_bool_true by exact Hs.
    intros (H1 & H2 & _). split; assumption. }
  destruct Hc as [H1 H2]. split; [exact H1|]. rewrite H2.
  destruct (FLT_plus_error_N_ex radix2 (-1074) 53 (fun n => negb (Z.even n)) (R64 x) (R64 y))
    as (eps & He & Hr); [apply format64|apply format64|].
  fold (rnd64 (R64 x + R64 y)) in Hr. rewrite Hr.
  replace ((R64 x + R64 y) * (1 + eps) - (R64 x + R64 y)) with (eps * (R64 x + R64 y)) by ring.
  rewrite Rabs_mult. apply Rmult_le_compat_r; [apply Rabs_pos|].
  eapply Rle_trans; [exact He|]. change (u_ro radix2 53) with (/ 2 * bpow radix2 (-53 + 1)).
  change (bpow radix2 (-53 + 1)) with (/ 4503599627370496). unfold unit32. lra.
Qed.

(** [(1 + unit32) ^ k], the growth of an error over [k] operations. *)
Definition growth (k : nat) : R := (1 + unit32) ^ k.
Lemma growth_S : forall k, growth (S k) = (1 + unit32) * growth k.
Proof. reflexivity. Qed.
Lemma growth_plus : forall a b, growth (a + b) = growth a * growth b.
Proof. intros. unfold growth. apply pow_add. Qed.
Lemma growth_1 : forall k, 1 <= growth k.
Proof. intros k. unfold growth. apply pow_R1_Rle. unfold unit32. lra. Qed.
Lemma growth_le : forall a b, (a <= b)%nat -> growth a <= growth b.
Proof. intros a b H. unfold growth. apply Rle_pow; [unfold unit32; lra|exact H]. Qed.
Lemma unit32_pos : 0 < unit32.
Proof. unfold unit32. lra. Qed.

Lemma magnitude_pos : forall l, 0 <= magnitude l.
Proof.
  induction l as [|v l IH]; cbn [magnitude fold_right]; [lra|].
  pose proof (Rabs_pos (R32 v)). unfold magnitude in IH. lra.
Qed.
Lemma total_le : forall l, Rabs (total l) <= magnitude l.
Proof.
  induction l as [|v l IH]; cbn [total magnitude fold_right]; [rewrite Rabs_R0; lra|].
  eapply Rle_trans; [apply Rabs_triang|]. unfold magnitude, total in IH. lra.
Qed.
Lemma total_app : forall a b, total (a ++ b) = total a + total b.
Proof.
  induction a as [|v a IH]; intros b; cbn [app]; [change (total []) with 0; lra|].
  change (total (v :: a)) with (R32 v + total a).
  change (total (v :: a ++ b)) with (R32 v + total (a ++ b)). rewrite IH. lra.
Qed.
Lemma magnitude_app : forall a b, magnitude (a ++ b) = magnitude a + magnitude b.
Proof.
  induction a as [|v a IH]; intros b; cbn [app]; [change (magnitude []) with 0; lra|].
  change (magnitude (v :: a)) with (Rabs (R32 v) + magnitude a).
  change (magnitude (v :: a ++ b)) with (Rabs (R32 v) + magnitude (a ++ b)). rewrite IH. lra.
Qed.
Lemma total_repeat : forall v n, total (repeat v n) = INR n * R32 v.
Proof.
  intros v. induction n as [|n IH]; [change (total (repeat v 0)) with 0; cbn [INR]; lra|].
  rewrite S_INR. change (total (repeat v (S n))) with (R32 v + total (repeat v n)). rewrite IH. lra.
Qed.
Lemma magnitude_repeat : forall v n, magnitude (repeat v n) = INR n * Rabs (R32 v).
Proof.
  intros v. induction n as [|n IH]; [change (magnitude (repeat v 0)) with 0; cbn [INR]; lra|].
  rewrite S_INR. change (magnitude (repeat v (S n))) with (Rabs (R32 v) + magnitude (repeat v n)).
  rewrite IH. lra.
Qed.

Lemma sum_f32_error : forall l acc, finite32 acc -> Forall finite32 l ->
  growth (length l) * (Rabs (R32 acc) + magnitude l) <= bpow radix2 127 ->
  finite32 (sum_f32 acc l)
  /\ Rabs (R32 (sum_f32 acc l) - (R32 acc + total l))
     <= (growth (length l) - 1) * (Rabs (R32 acc) + magnitude l).
Proof.
  induction l as [|x l IH]; intros acc Ha Hl Hb.
  - cbn [sum_f32 fold_left total magnitude fold_right length]. split; [exact Ha|].
    replace (R32 acc - (R32 acc + 0)) with 0 by ring. rewrite Rabs_R0.
    unfold growth. cbn [pow]. lra.
  - apply Forall_cons_iff in Hl. destruct Hl as [Hx Hl].
    cbn [length] in *. rewrite growth_S in *.
    set (G := growth (length l)) in *.
    assert (HG : 1 <= G) by apply growth_1.
    change (magnitude (x :: l)) with (Rabs (R32 x) + magnitude l) in *.
    change (total (x :: l)) with (R32 x + total l).
    change (sum_f32 acc (x :: l)) with (sum_f32 (f32_add acc x) l).
    pose proof (magnitude_pos l) as Hmag. pose proof (Rabs_pos (R32 acc)). pose proof (Rabs_pos (R32 x)).
    pose proof unit32_pos as Hu.
    pose proof (Rabs_triang (R32 acc) (R32 x)) as Htri.
    set (u := unit32) in *. set (B := bpow radix2 127) in *.
    set (M := Rabs (R32 acc) + (Rabs (R32 x) + magnitude l)) in *.
    assert (HM : M <= (1 + u) * G * M).
    { rewrite <- (Rmult_1_l M) at 1. apply Rmult_le_compat_r; [unfold M; lra|].
      rewrite <- (Rmult_1_l 1). apply Rmult_le_compat; lra. }
    destruct (f32_add_error acc x Ha Hx) as [Hf He].
    { fold B. unfold M in *. lra. }
    fold u in He.
    set (a' := R32 (f32_add acc x)) in *.
    assert (Ha' : Rabs a' <= (1 + u) * (Rabs (R32 acc) + Rabs (R32 x))).
    { replace a' with (a' - (R32 acc + R32 x) + (R32 acc + R32 x)) by ring.
      eapply Rle_trans; [apply Rabs_triang|].
      assert (u * Rabs (R32 acc + R32 x) <= u * (Rabs (R32 acc) + Rabs (R32 x)))
        by (apply Rmult_le_compat_l; lra).
      rewrite Rmult_plus_distr_r, Rmult_1_l. lra. }
    assert (HM' : Rabs a' + magnitude l <= (1 + u) * M).
    { unfold M. rewrite Rmult_plus_distr_l in Ha'. rewrite !Rmult_plus_distr_l.
      assert (0 <= u * magnitude l) by (apply Rmult_le_pos; lra). lra. }
    assert (HGM : G * (Rabs a' + magnitude l) <= (1 + u) * G * M).
    { replace ((1 + u) * G * M) with (G * ((1 + u) * M)) by ring.
      apply Rmult_le_compat_l; lra. }
    destruct (IH (f32_add acc x) Hf Hl) as [IH1 IH2].
    { fold a'. lra. }
    split; [exact IH1|]. fold a' in IH2.
    replace (R32 (sum_f32 (f32_add acc x) l) - (R32 acc + (R32 x + total l)))
      with ((R32 (sum_f32 (f32_add acc x) l) - (a' + total l)) + (a' - (R32 acc + R32 x))) by ring.
    eapply Rle_trans; [apply Rabs_triang|].
    assert (E1 : u * Rabs (R32 acc + R32 x) <= u * M).
    { apply Rmult_le_compat_l; [lra|]. unfold M. lra. }
    assert (E2 : (G - 1) * (Rabs a' + magnitude l) <= (G - 1) * ((1 + u) * M))
      by (apply Rmult_le_compat_l; lra).
    replace (((1 + u) * G - 1) * M) with ((G - 1) * ((1 + u) * M) + u * M) by ring. lra.
Qed.

Lemma mul_int_error : forall n v, (Z.abs n <= 2 ^ 24)%Z -> finite32 v ->
  Rabs (IZR n * R32 v) <= bpow radix2 127 ->
  finite32 (f32_mul (f32_of_Z n) v)
  /\ Rabs (R32 (f32_mul (f32_of_Z n) v) - IZR n * R32 v) <= unit32 * Rabs (IZR n * R32 v).
Proof.
  intros n v Hn Hv Hb. destruct (f32_of_Z_exact n Hn) as [Hf Hr].
  destruct (f32_mul_correct (f32_of_Z n) v Hf Hv) as [H _]. rewrite Hr in H.
  destruct (H (rnd32_small _ Hb)) as [H1 H2]. split; [exact H1|]. rewrite H2.
  destruct (Rle_lt_dec (bpow radix2 (-126)) (Rabs (IZR n * R32 v))) as [Hbig|Hsmall].
  - pose proof (rnd32_error _ Hbig) as E. unfold u32r in E. unfold unit32. exact E.
  - assert (Hg : generic_format radix2 fexp32 (IZR n * R32 v)).
    { pose proof (generic_format_FIX_FLT radix2 (-149) 24 (R32 v) (format32 v)) as Hx.
      apply FIX_format_generic in Hx. destruct Hx as [[m e] Hm He]. cbn [Fexp] in He. subst e.
      assert (E : IZR n * R32 v = F2R (Float radix2 (n * m) (-149))).
      { rewrite Hm. unfold F2R. cbn [Fnum Fexp]. rewrite mult_IZR. ring. }
      apply generic_format_FLT. rewrite E. exists (Float radix2 (n * m) (-149)); [reflexivity| |].
      - cbn [Fnum]. rewrite E in Hsmall. unfold F2R in Hsmall. cbn [Fnum Fexp] in Hsmall.
        rewrite Rabs_mult, (Rabs_pos_eq (bpow radix2 (-149))) in Hsmall by apply bpow_ge_0.
        replace (-126)%Z with (23 + -149)%Z in Hsmall by lia. rewrite bpow_plus in Hsmall.
        apply Rmult_lt_reg_r in Hsmall; [|apply bpow_gt_0].
        rewrite <- abs_IZR in Hsmall. change (bpow radix2 23) with (IZR (2 ^ 23)) in Hsmall.
        apply lt_IZR in Hsmall. change (radix2 ^ 24)%Z with (2 ^ 24)%Z. lia.
      - cbn [Fexp]. lia. }
    unfold rnd32. rewrite round_generic; [|typeclasses eauto|exact Hg].
    replace (IZR n * R32 v - IZR n * R32 v) with 0 by ring. rewrite Rabs_R0.
    apply Rmult_le_pos; [unfold unit32; lra|apply Rabs_pos].
Qed.

Lemma shape_sum : forall P s out, shape P s out -> Forall finite32 out ->
  (Z.of_nat (length out) <= 2 ^ 24)%Z ->
  growth (length out) * magnitude out <= bpow radix2 127 ->
  exists x, segment_sum P s = Ok x /\ finite32 x
    /\ Rabs (R32 x - total out) <= (growth (length out) - 1) * magnitude out.
Proof.
  intros P s out [v n rs Hn Hn' _ _ _ _ E|v rs _ _ _ _ E] Hf Hlen Hb; rewrite E; clear E.
  - apply Forall_app in Hf. destruct Hf as [Hfv Hrs].
    assert (Hv : finite32 v) by (destruct n; [lia|now inversion Hfv]).
    rewrite app_length, repeat_length in *. rewrite total_app, magnitude_app, total_repeat,
      magnitude_repeat in *.
    set (A := INR n * Rabs (R32 v)) in *. set (G := growth (n + length rs)) in *.
    assert (HA : 0 <= A) by (apply Rmult_le_pos; [apply pos_INR|apply Rabs_pos]).
    pose proof (magnitude_pos rs) as Hmag. assert (HG : 1 <= G) by apply growth_1.
    assert (EA : Rabs (IZR (Z.of_nat n) * R32 v) = A).
    { rewrite Rabs_mult, <- INR_IZR_INZ. rewrite (Rabs_pos_eq (INR n)) by apply pos_INR. reflexivity. }
    assert (HM : A + magnitude rs <= G * (A + magnitude rs)).
    { rewrite <- (Rmult_1_l (A + magnitude rs)) at 1. apply Rmult_le_compat_r; lra. }
    destruct (mul_int_error (Z.of_nat n) v ltac:(lia) Hv ltac:(rewrite EA; lra)) as [Hm1 Hm2].
    rewrite EA in Hm2. fold (pmc_sum_of n v) in Hm1, Hm2. rewrite <- INR_IZR_INZ in Hm2.
    pose proof unit32_pos as Hu.
    destruct rs as [|r rs'].
    + exists (pmc_sum_of n v). split; [reflexivity|]. split; [exact Hm1|].
      cbn [total magnitude fold_right]. rewrite !Rplus_0_r.
      eapply Rle_trans; [exact Hm2|]. apply Rmult_le_compat_r; [exact HA|].
      assert (growth 1 <= G) by (apply growth_le; lia).
      unfold growth in H. cbn [pow] in H. lra.
    + set (rs := r :: rs') in *. set (a := pmc_sum_of n v) in *.
      assert (HG' : growth (S (length rs)) <= G) by (apply growth_le; lia).
      rewrite growth_S in HG'. set (g := growth (length rs)) in *.
      assert (Hg : 1 + unit32 <= g).
      { assert (H : growth 1 <= g) by (apply growth_le; cbn [rs length]; lia).
        unfold growth in H. cbn [pow] in H. lra. }
      assert (Hgu : g * (A + magnitude rs) <= G * (A + magnitude rs)).
      { apply Rmult_le_compat_r; [lra|]. assert (0 <= unit32 * g) by (apply Rmult_le_pos; lra). lra. }
      assert (Hgm : g * magnitude rs <= g * (A + magnitude rs)) by (apply Rmult_le_compat_l; lra).
      destruct (sum_f32_error rs f32_zero eq_refl Hrs) as [Hs1 Hs2].
      { change (R32 f32_zero) with 0. rewrite Rabs_R0, Rplus_0_l. fold g. lra. }
      change (R32 f32_zero) with 0 in Hs2. rewrite Rabs_R0, !Rplus_0_l in Hs2. fold g in Hs2.
      set (b := sum_f32 f32_zero rs) in *.
      assert (Ha : Rabs (R32 a) <= (1 + unit32) * A).
      { replace (R32 a) with (R32 a - INR n * R32 v + INR n * R32 v) by ring.
        eapply Rle_trans; [apply Rabs_triang|].
        rewrite <- INR_IZR_INZ in EA. rewrite EA. lra. }
      assert (Hb' : Rabs (R32 b) <= g * magnitude rs).
      { replace (R32 b) with (R32 b - total rs + total rs) by ring.
        eapply Rle_trans; [apply Rabs_triang|]. pose proof (total_le rs).
        rewrite Rmult_minus_distr_r in Hs2. lra. }
      assert (Ha' : (1 + unit32) * A <= g * A) by (apply Rmult_le_compat_r; lra).
      assert (Hab : Rabs (R32 a + R32 b) <= g * (A + magnitude rs)).
      { eapply Rle_trans; [apply Rabs_triang|]. rewrite Rmult_plus_distr_l. lra. }
      destruct (f32_add_error a b Hm1 Hs1 ltac:(lra)) as [Hp1 Hp2].
      exists (f32_add a b). split; [reflexivity|]. split; [exact Hp1|].
      replace (R32 (f32_add a b) - (INR n * R32 v + total rs))
        with ((R32 (f32_add a b) - (R32 a + R32 b)) + ((R32 a - INR n * R32 v) + (R32 b - total rs))) by ring.
      eapply Rle_trans; [apply Rabs_triang|].
      assert (H2 : Rabs (R32 a - INR n * R32 v + (R32 b - total rs))
                   <= unit32 * A + (g - 1) * magnitude rs).
      { eapply Rle_trans; [apply Rabs_triang|]. lra. }
      assert (H3 : unit32 * Rabs (R32 a + R32 b) <= unit32 * (g * (A + magnitude rs)))
        by (apply Rmult_le_compat_l; lra).
      assert (H4 : unit32 * A <= (g - 1) * A) by (apply Rmult_le_compat_r; lra).
      apply Rle_trans with (((1 + unit32) * g - 1) * (A + magnitude rs)).
      * replace (((1 + unit32) * g - 1) * (A + magnitude rs))
          with (unit32 * (g * (A + magnitude rs)) + ((g - 1) * A + (g - 1) * magnitude rs)) by ring.
        lra.
      * apply Rmult_le_compat_r; lra.
  - apply Forall_cons_iff in Hf. destruct Hf as [Hv Hrs].
    cbn [length] in *. change (magnitude (v :: rs)) with (Rabs (R32 v) + magnitude rs) in *.
    change (total (v :: rs)) with (R32 v + total rs).
    pose proof (magnitude_pos rs) as Hmag. pose proof (Rabs_pos (R32 v)) as Hav.
    assert (HG : growth (length rs) <= growth (S (length rs))) by (apply growth_le; lia).
    destruct (sum_f32_error rs v Hv Hrs) as [Hs1 Hs2].
    { eapply Rle_trans; [|exact Hb]. apply Rmult_le_compat_r; lra. }
    exists (sum_f32 v rs). split; [reflexivity|]. split; [exact Hs1|].
    eapply Rle_trans; [exact Hs2|]. apply Rmult_le_compat_r; lra.
Qed.

Lemma sum_segments : forall P segments parts, shapes P segments parts -> forall acc count,
  finite64 acc -> Forall finite32 (concat parts) -> Forall (short P) segments ->
  let k := (length (concat parts) + length segments)%nat in
  let M := Rabs (R64 acc) + magnitude (concat parts) in
  growth k * M <= bpow radix2 127 ->
  (0 <= count)%Z -> (count + Z.of_nat (length (concat parts)) < 2 ^ 64)%Z ->
  exists x, model_sum P acc segments = Ok x
    /\ model_avg P count acc segments = Ok (count + Z.of_nat (length (concat parts)), x)%Z
    /\ finite64 x
    /\ Rabs (R64 x - (R64 acc + total (concat parts))) <= (growth k - 1) * M.
Proof.
  intros P segments parts H. induction H as [|s out segments parts ((ts & Hg) & Hsh & Hlen) H IH];
    intros acc count Ha Hf Hshort k M Hb Hc1 Hc2.
  - exists acc. split; [reflexivity|]. split; [cbn; now rewrite Z.add_0_r|]. split; [exact Ha|].
    unfold k, M. cbn [concat total magnitude fold_right length Nat.add]. unfold growth. cbn [pow].
    replace (R64 acc - (R64 acc + 0)) with 0 by ring. rewrite Rabs_R0. lra.
  - cbn [concat] in *. apply Forall_app in Hf. destruct Hf as [Hfo Hf].
    apply Forall_cons_iff in Hshort. destruct Hshort as [Hso Hshort].
    unfold k, M in *. rewrite magnitude_app, app_length in *. rewrite total_app. clear k M.
    cbn [length] in *.
    replace (length out + length (concat parts) + S (length segments))%nat
      with (S (length out) + (length (concat parts) + length segments))%nat in * by lia.
    rewrite (growth_plus (S (length out))), (growth_S (length out)) in Hb |- *.
    set (n := length out) in *. set (K := (length (concat parts) + length segments)%nat) in *.
    set (A := Rabs (R64 acc)) in *. set (m := magnitude out) in *. set (M := magnitude (concat parts)) in *.
    set (g := growth n) in *. set (G := growth K) in *. set (u := unit32) in *.
    set (B := bpow radix2 127) in *.
    assert (Hu : 0 < u) by apply unit32_pos.
    assert (Hg1 : 1 <= g) by apply growth_1. assert (HG1 : 1 <= G) by apply growth_1.
    assert (HA : 0 <= A) by apply Rabs_pos. assert (Hm : 0 <= m) by apply magnitude_pos.
    assert (HM : 0 <= M) by apply magnitude_pos.
    assert (Hug : g <= (1 + u) * g).
    { assert (0 <= u * g) by (apply Rmult_le_pos; lra). lra. }
    assert (HgG : (1 + u) * g <= (1 + u) * g * G).
    { rewrite <- (Rmult_1_r ((1 + u) * g)) at 1. apply Rmult_le_compat_l; lra. }
    assert (T1 : (1 + u) * g * (A + m) <= B).
    { apply Rle_trans with ((1 + u) * g * G * (A + (m + M))); [|exact Hb].
      apply Rmult_le_compat; lra. }
    assert (T2 : g * (A + m) <= (1 + u) * g * (A + m)) by (apply Rmult_le_compat_r; lra).
    destruct (shape_sum P s out Hsh Hfo) as (x & Ex & Hfx & Hex).
    { exact (Hso ts out Hg). }
    { fold n g m B. assert (g * m <= g * (A + m)) by (apply Rmult_le_compat_l; lra). lra. }
    fold n g m in Hex.
    destruct (f64_of_f32_finite x Hfx) as [Hf64 Hr64].
    assert (Hx : Rabs (R32 x) <= g * m).
    { replace (R32 x) with (R32 x - total out + total out) by ring.
      eapply Rle_trans; [apply Rabs_triang|]. pose proof (total_le out) as Ht. fold m in Ht.
      rewrite Rmult_minus_distr_r in Hex. lra. }
    assert (HgA : A <= g * A).
    { rewrite <- (Rmult_1_l A) at 1. apply Rmult_le_compat_r; lra. }
    assert (Hax : Rabs (R64 acc + R32 x) <= A + g * m).
    { eapply Rle_trans; [apply Rabs_triang|]. fold A. lra. }
    destruct (f64_add_error acc (f64_of_f32 x) Ha Hf64) as [Hp1 Hp2].
    { rewrite Hr64. fold B. rewrite Rmult_plus_distr_l in T2. lra. }
    rewrite Hr64 in Hp2. fold u in Hp2. set (acc' := f64_add acc (f64_of_f32 x)) in *.
    assert (Hacc' : Rabs (R64 acc') <= (1 + u) * g * (A + m)).
    { replace (R64 acc') with (R64 acc' - (R64 acc + R32 x) + (R64 acc + R32 x)) by ring.
      eapply Rle_trans; [apply Rabs_triang|].
      apply Rle_trans with ((1 + u) * (A + g * m)).
      - assert (u * Rabs (R64 acc + R32 x) <= u * (A + g * m)) by (apply Rmult_le_compat_l; lra). lra.
      - rewrite Rmult_assoc. apply Rmult_le_compat_l; lra. }
    assert (HM' : Rabs (R64 acc') + M <= (1 + u) * g * (A + (m + M))).
    { assert (M <= (1 + u) * g * M).
      { rewrite <- (Rmult_1_l M) at 1. apply Rmult_le_compat_r; lra. }
      replace ((1 + u) * g * (A + (m + M))) with ((1 + u) * g * (A + m) + (1 + u) * g * M) by ring.
      lra. }
    destruct (IH acc' (u64 (count + Z.of_nat n)) Hp1 Hf Hshort) as (y & Y1 & Y2 & Y3 & Y4).
    { fold K G M. eapply Rle_trans; [|exact Hb].
      replace ((1 + u) * g * G * (A + (m + M))) with (G * ((1 + u) * g * (A + (m + M)))) by ring.
      apply Rmult_le_compat_l; lra. }
    { unfold u64. rewrite Z.mod_small; lia. }
    { unfold u64. rewrite Z.mod_small; lia. }
    exists y. cbn [model_sum model_avg]. rewrite Ex, Hlen. cbn [bind]. fold acc'. fold n.
    split; [exact Y1|]. split.
    { rewrite Y2. unfold u64. rewrite Z.mod_small by lia. f_equal. f_equal. lia. }
    split; [exact Y3|].
    fold K G M in Y4.
    replace (R64 y - (R64 acc + (total out + total (concat parts))))
      with ((R64 y - (R64 acc' + total (concat parts)))
            + ((R64 acc' - (R64 acc + R32 x)) + (R32 x - total out))) by ring.
    eapply Rle_trans; [apply Rabs_triang|].
    assert (E1 : Rabs (R64 acc' - (R64 acc + R32 x) + (R32 x - total out))
                 <= u * (A + g * m) + (g - 1) * m).
    { eapply Rle_trans; [apply Rabs_triang|].
      assert (u * Rabs (R64 acc + R32 x) <= u * (A + g * m)) by (apply Rmult_le_compat_l; lra). lra. }
    assert (Hug2 : 1 + u <= (1 + u) * g).
    { rewrite <- (Rmult_1_r (1 + u)) at 1. apply Rmult_le_compat_l; lra. }
    assert (E2 : u * A <= ((1 + u) * g - 1) * A) by (apply Rmult_le_compat_r; lra).
    assert (E3 : u * (A + g * m) + (g - 1) * m <= ((1 + u) * g - 1) * (A + m)).
    { replace (((1 + u) * g - 1) * (A + m)) with (((1 + u) * g - 1) * A + (u * (g * m) + (g - 1) * m)) by ring.
      lra. }
    assert (E4 : ((1 + u) * g - 1) * (A + m) <= ((1 + u) * g - 1) * (A + (m + M)))
      by (apply Rmult_le_compat_l; lra).
    assert (E5 : (G - 1) * (Rabs (R64 acc') + M) <= (G - 1) * ((1 + u) * g * (A + (m + M))))
      by (apply Rmult_le_compat_l; lra).
    replace (((1 + u) * g * G - 1) * (A + (m + M)))
      with ((G - 1) * ((1 + u) * g * (A + (m + M))) + ((1 + u) * g - 1) * (A + (m + M))) by ring.
    lra.
Qed.

Lemma sum_avg_correct : forall P segments, good_log2 P -> ties_first P ->
  Forall (fun s => created P s /\ sg_model_type_id s <> swing_id) segments ->
  Forall (short P) segments ->
  exists restored, decompressed P segments restored
    /\ (Forall finite32 restored -> (Z.of_nat (length restored) < 2 ^ 64)%Z ->
        let factor := (1 + unit32) ^ (length restored + length segments) in
        factor * magnitude restored <= IZR (2 ^ 127) ->
        exists sum, model_sum P f64_zero segments = Ok sum
          /\ model_avg P 0 f64_zero segments = Ok (Z.of_nat (length restored), sum)
          /\ finite64 sum
          /\ Rabs (R64 sum - total restored) <= (factor - 1) * magnitude restored).
Proof.
  intros P segments HP HT H Hs. destruct (created_shapes P segments HP HT H) as (parts & Hp).
  exists (concat parts). split; [now apply shapes_decompressed|].
  intros Hf Hl factor Hb.
  destruct (sum_segments P segments parts Hp f64_zero 0%Z eq_refl Hf Hs) as (x & X1 & X2 & X3 & X4).
  - change (R64 f64_zero) with 0. rewrite Rabs_R0, Rplus_0_l.
    change (bpow radix2 127) with (IZR (2 ^ 127)). exact Hb.
  - lia.
  - lia.
  - exists x. change (R64 f64_zero) with 0 in X4. rewrite Rabs_R0, !Rplus_0_l in X4.
    rewrite Z.add_0_l in X2. auto.
Qed.
