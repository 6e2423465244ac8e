(** The error of the values restored by Swing with f64 arithmetic. *)
From Coq Require Import ZArith Reals Psatz Lra Bool Lia List Sorting.Sorted.
From Flocq Require Import Core IEEE754.BinarySingleNaN IEEE754.Binary IEEE754.Bits.
From Verif Require Import Model.Base Model.Float Model.ErrorBound Model.Swing
  Spec.ErrorBoundSpec Spec.SwingSpec
  Proofs.FloatProofs Proofs.ErrorBoundProofs Proofs.SwingProofs Proofs.SwingFloatProofs
  Proofs.SwingArithmetic Proofs.SwingRounding Proofs.SwingLimits Proofs.SwingAccepted
  Proofs.SwingStored.
Import ListNotations.
Open Scope R_scope.

Lemma powers : 2 ^ 22 = 4194304 /\ 2 ^ 44 = 17592186044416 /\ 2 ^ 46 = 70368744177664
  /\ / 2 ^ 148 = 4 * half32 /\ 2 ^ 120 = bpow radix2 120.
Proof.
  rewrite !pow_IZR. split; [|split; [|split; [|split]]].
  - reflexivity.
  - reflexivity.
  - reflexivity.
  - unfold half32. change (bpow radix2 (-150)) with (/ IZR (2 ^ 150)).
    change (2 ^ Z.of_nat 148)%Z with (2 ^ 148)%Z.
    change (2 ^ 150)%Z with (2 ^ 148 * 4)%Z. rewrite mult_IZR.
    assert (0 < IZR (2 ^ 148)) by (apply IZR_lt; reflexivity).
    field. lra.
  - reflexivity.
Qed.

Section Bound.
Context (Pl : platform).
Notation N := (f64_num Pl).
Definition widen (p : Z * f32) : Z * f64 := (fst p, f64_of_f32 (snd p)).

Lemma swing_f64_near : forall eb points m S T dz, valid_error_bound eb ->
  (2 <= length points)%nat -> (1 <= dz)%Z -> (T <= 2 ^ 52)%Z ->
  S <= 2 ^ 120 -> IZR T / IZR dz + INR (length points) <= 2 ^ 44 ->
  StronglySorted (fun p q => (p + dz <= q)%Z) (map fst points) ->
  Forall (fun p => (Z.abs (fst p) <= T)%Z /\ finite32 (snd p)
                   /\ Rabs (R32 (snd p)) + exact_deviation eb (R32 (snd p)) <= S) points ->
  swing_fit_all N (swing_new N eb) (map widen points) = Some m ->
  forall t v, In (t, v) points ->
  Forall (fun g => finite32 g
          /\ Rabs (R32 v - R32 g) <= exact_deviation eb (R32 v) + rounding S T dz (length points))
    (swing_grid Pl (sw_start_time m) (sw_end_time m)
       (fst (swing_model Pl m)) (snd (swing_model Pl m)) [t]).
Proof.
  intros eb points m S T dz Heb Hlen Hdz HT HS Htau Hsort Hall H t v Hin.
  destruct powers as (P22 & P44 & P46 & P148 & P120). rewrite P120 in HS. rewrite P44 in Htau.
  destruct points as [|[t0 v0] rest]; [cbn in Hlen; lia|].
  destruct rest as [|p1 rest1] eqn:Erest; [cbn in Hlen; lia|]. rewrite <- Erest in *.
  assert (Hne : rest <> []) by (subst; discriminate). clear Erest.
  inversion Hall as [|? ? (HT0 & Hv0 & Hv0S) Hrest]; subst. cbn [fst snd] in HT0, Hv0, Hv0S.
  cbn [map fst] in Hsort. inversion Hsort as [|? ? Hsort' Hge]; subst.
  pose proof (exact_deviation_nonneg eb Heb) as Hdev.
  assert (HfS : Rabs (R32 v0) <= S) by (pose proof (Hdev (R32 v0)); lra).
  assert (HS0 : 0 <= S) by (pose proof (Rabs_pos (R32 v0)); lra).
  (* The first data point. *)
  cbn [map swing_fit_all widen fst snd] in H.
  change (swing_fit N (swing_new N eb) t0 (f64_of_f32 v0))
    with (true, Swing N eb t0 t0 (f64_of_f32 v0) f64_nan f64_nan f64_nan f64_nan
                  f64_zero f64_zero 1) in H.
  cbv iota in H.
  match type of H with swing_fit_all _ ?st _ = _ => set (m1 := st) in H end.
  assert (H1 : accepted_state Pl eb t0 T dz v0 S [] m1) by (constructor; auto).
  assert (Hsz : Forall (fun p => sized eb S (snd p)) rest).
  { rewrite Forall_forall in *. intros p Hp. destruct (Hrest p Hp) as (_ & Ha & Hb). now split. }
  destruct (accepted_run Pl eb t0 T dz v0 S Heb HT0 HT Hdz Hv0 HS0 HS HfS rest [] m1 m H1 Hsz)
    as (Hm & Hend & _); auto.
  { rewrite Forall_forall in *. intros p Hp. apply (Hrest p Hp). }
  { rewrite Forall_forall in *. intros p Hp. split; [|congruence]. apply Hge. now apply in_map. }
  specialize (Hend Hne). cbn [app] in Hm.
  destruct Hm as [Meb Mstart Mfirst Mlen [?|(Du & Dl & Hte & HDu & HDl & Lu & Ll & Hpts)]];
    [congruence|].
  set (te := sw_end_time m) in *.
  apply in_map_iff in Hend. destruct Hend as ([te' ve] & Ete & Hine). cbn [fst] in Ete. subst te'.
  assert (HteT : (Z.abs te <= T)%Z).
  { rewrite Forall_forall in Hrest. apply (Hrest (te, ve) Hine). }
  set (k := INR (length rest)) in *.
  assert (Hn : INR (length ((t0, v0) :: rest)) = k + 1) by (cbn [length]; apply S_INR).
  unfold rounding. rewrite Hn, P22, P46, P148. rewrite Hn in Htau.
  assert (Hk : 1 <= k).
  { change 1 with (INR 1). apply le_INR. destruct rest; [congruence|]. cbn. lia. }
  destruct (MB S HS0 HS) as (HM0 & HSM & HM200 & _).
  pose proof (W_bounds S HS0 HS) as HW.
  set (MM := SwingAccepted.M S) in *. set (W := u * MM) in *.
  set (tau := IZR T / IZR dz) in *.
  assert (Hdz1 : 1 <= IZR dz) by (apply IZR_le; lia).
  assert (Htau0 : 0 <= tau).
  { unfold tau. apply Rmult_le_pos; [apply IZR_le; lia|]. left. apply Rinv_0_lt_compat. lra. }
  pose proof mu_pos as Hmu. destruct slop_bounds as (Hsl0 & Hsl1 & Hsl2 & Hh).
  assert (Hmuk : mu * k <= mu * 17592186044416) by (apply Rmult_le_compat_l; lra).
  assert (HWk : 0 <= W * k) by (apply Rmult_le_pos; lra).
  assert (HWt : 0 <= W * tau) by (apply Rmult_le_pos; lra).
  assert (HWs : W * tau + W * k <= MM / 500).
  { replace (W * tau + W * k) with (MM * (u * (tau + k))) by (unfold W; ring).
    unfold Rdiv. apply Rmult_le_compat_l; [lra|]. unfold u64r. lra. }
  (* The stored slope. *)
  set (PP := SwingAccepted.P T dz S) in *. set (QQ := SwingAccepted.Q S) in *.
  assert (EP : PP = 7 * (W * tau)).
  { unfold PP, SwingAccepted.P, SwingAccepted.delta, tau, W, MM. ring. }
  assert (EQ : QQ = 24 * W + mu / 100) by reflexivity.
  assert (HkQ : k * QQ = 24 * (W * k) + mu * k / 100) by (rewrite EQ; field).
  assert (Heta : 4 * PP + 3 * QQ + k * QQ <= 15 / 100 * MM / 2 + slop) by lra.
  assert (Hsu := proj1 Lu). assert (Hsl := proj1 Ll).
  set (X := num_max N (sw_lower_slope m)
              (num_min N (num_div N (sw_mse_numerator m) (sw_mse_denominator m))
                 (sw_upper_slope m))).
  destruct (clamped Pl (sw_lower_slope m) (f64_div (sw_mse_numerator m) (sw_mse_denominator m))
              (sw_upper_slope m) Hsl Hsu) as [HXf HXb].
  change (f64_max Pl (sw_lower_slope m)
            (f64_min Pl (f64_div (sw_mse_numerator m) (sw_mse_denominator m)) (sw_upper_slope m)))
    with X in HXf, HXb.
  assert (HdzDu : 1 <= Du /\ 1 <= Dl).
  { unfold SwingAccepted.delta in HDu, HDl. lra. }
  assert (HX : Rabs (R64 X) <= 3 * bpow radix2 200).
  { destruct (slope_small t0 T MM HT0 HT ltac:(lra) HM200 Du _ (proj1 HdzDu)
                (proj1 (proj2 (proj2 Lu)))) as (_ & A1 & _).
    destruct (slope_small t0 T MM HT0 HT ltac:(lra) HM200 Dl _ (proj2 HdzDu)
                (proj1 (proj2 (proj2 Ll)))) as (_ & A2 & _).
    apply Rabs_le_inv in A1, A2. apply Rabs_le.
    unfold Rmax in HXb. destruct (Rle_dec _ _) in HXb; lra. }
  set (f := R32 v0) in *.
  (* The line is close to all data points. *)
  assert (Hclose : forall t v, In (t, v) rest -> (t0 <= t <= te)%Z
    /\ Rabs (R32 v - (f + R64 X * IZR (t - t0)))
       <= allowed eb v + (4 * PP + 3 * QQ + k * QQ)
    /\ Rabs (f + R64 X * IZR (t - t0)) <= 11 / 10 * MM + slop).
  { intros t' v' Hi. destruct (Hpts t' v' Hi) as [Ht' (S1 & S2 & S3)].
    unfold after in S1, S2, S3.
    assert (Hx : 0 < IZR (t' - t0)) by (apply IZR_lt; lia).
    set (x := IZR (t' - t0)) in *.
    assert (HP0 : 0 <= PP) by lra. assert (HQ0 : 0 <= QQ) by lra.
    pose proof (side_bound f PP QQ HP0 HQ0 k Du _ x _ ltac:(lra) Hx ltac:(lra) S1) as B1.
    pose proof (side_bound (- f) PP QQ HP0 HQ0 k Dl _ x _ ltac:(lra) Hx ltac:(lra) S2) as B2.
    rewrite Forall_forall in Hsz. pose proof (Hsz _ Hi) as Hv'. cbn [snd] in Hv'.
    destruct (allowed_bounds eb S Heb HS0 HS v' Hv') as (_ & Ha0 & _ & Ha2). fold MM in Ha2.
    assert (Hva : Rabs (R32 v') + allowed eb v' <= MM).
    { pose proof (Rabs_pos (R32 v')). pose proof u_small.
      assert (0 <= (Rabs (R32 v') + allowed eb v') * u) by (apply Rmult_le_pos; lra). lra. }
    assert (HkQ0 : 0 <= k * QQ) by (apply Rmult_le_pos; lra).
    assert (Hlo : R64 (sw_lower_slope m) * x <= R64 X * x) by (apply Rmult_le_compat_r; lra).
    assert (Hhi : f + R64 X * x <= R32 v' + allowed eb v' + (4 * PP + 3 * QQ + k * QQ)).
    { unfold Rmax in HXb. destruct (Rle_dec _ _) in HXb.
      - assert (R64 X * x <= R64 (sw_upper_slope m) * x) by (apply Rmult_le_compat_r; lra). lra.
      - assert (R64 X * x <= R64 (sw_lower_slope m) * x) by (apply Rmult_le_compat_r; lra). lra. }
    assert (Hlo' : R32 v' - allowed eb v' - (4 * PP + 3 * QQ + k * QQ) <= f + R64 X * x) by lra.
    split; [lia|]. split; [apply Rabs_le; lra|].
    pose proof (Rle_abs (R32 v')) as A1. pose proof (Rle_abs (- R32 v')) as A2.
    rewrite Rabs_Ropp in A2. apply Rabs_le. lra. }
  (* The restored value. *)
  assert (Hend : Rabs (f + R64 X * IZR (te - t0)) <= 11 / 10 * MM + slop)
    by apply (Hclose te ve Hine).
  assert (Hstored := stored_near Pl t0 T dz v0 S HT0 HT Hdz Hv0 HS0 HS HfS X te _ tau HXf Hte HteT
                       eq_refl ltac:(lra) eq_refl Hend HX).
  unfold swing_grid, swing_model. cbn [map fst snd]. rewrite Mstart. fold te.
  unfold swing_line. rewrite Mfirst, Mstart. fold te. cbn [fst snd]. fold X.
  cbn [num_add num_mul f64_num].
  constructor; [|constructor].
  assert (Hv : sized eb S v).
  { destruct Hin as [[= <- <-]|Hin]; [now split|]. rewrite Forall_forall in Hsz.
    exact (Hsz _ Hin). }
  destruct (allowed_bounds eb S Heb HS0 HS v Hv) as (_ & Ha0 & Ha1 & _). fold MM in Ha1. fold W in Ha1.
  assert (Hc : (t0 <= t <= te)%Z
    /\ Rabs (R32 v - (f + R64 X * IZR (t - t0)))
       <= allowed eb v + (4 * PP + 3 * QQ + k * QQ)
    /\ Rabs (f + R64 X * IZR (t - t0)) <= 11 / 10 * MM + slop).
  { destruct Hin as [[= <- <-]|Hin]; [|now apply Hclose].
    replace (f + R64 X * IZR (t0 - t0)) with f by (rewrite Z.sub_diag; ring).
    split; [lia|]. split.
    - unfold f. replace (R32 v0 - R32 v0) with 0 by ring. rewrite Rabs_R0.
      assert (0 <= k * QQ) by (apply Rmult_le_pos; lra). lra.
    - unfold f in *. lra. }
  destruct Hc as (Ht & Hc1 & Hc2).
  destruct (Hstored t Ht Hc2) as [Hg1 Hg2]. split; [exact Hg1|].
  rewrite Rabs_minus_sym in Hg2.
  eapply Rle_trans; [eapply near_trans; [exact Hc1|exact Hg2]|].
  (* The sum of all errors. *)
  unfold storing. fold MM. fold W.
  assert (EW : forall y, W * y = u * (1001 / 1000 * (S * y) + mu * y)).
  { intros y. unfold W, MM, SwingAccepted.M. ring. }
  assert (HSk : 0 <= S * k) by (apply Rmult_le_pos; lra).
  assert (HSt : 0 <= S * tau) by (apply Rmult_le_pos; lra).
  assert (HSk1 : S * 1 <= S * k) by (apply Rmult_le_compat_l; lra).
  assert (Hmut : mu * tau <= mu * 17592186044416) by (apply Rmult_le_compat_l; lra).
  assert (Hmut0 : 0 <= mu * tau) by (apply Rmult_le_pos; lra).
  assert (Hmuk0 : 0 <= mu * k) by (apply Rmult_le_pos; lra).
  pose proof (EW tau) as E1. pose proof (EW k) as E2.
  assert (E3 : W = u * (1001 / 1000 * S + mu)) by reflexivity.
  assert (E4 : u32r * MM = u32r * (1001 / 1000 * S + mu)) by reflexivity.
  assert (E5 : S * (/ 4194304 + (tau + (k + 1)) / 70368744177664)
               = S * / 4194304 + (S * tau + S * k + S) * / 70368744177664) by field.
  replace (W * (13 * tau + 30)) with (13 * (W * tau) + 30 * W) by ring.
  rewrite E5. clear E5. rewrite HkQ, EP, EQ. unfold u64r, u32r in *. lra.
Qed.

Lemma swing_f64_offered : forall eb offered points m S T dz, valid_error_bound eb ->
  (2 <= length points)%nat -> (1 <= dz)%Z -> (T <= 2 ^ 52)%Z ->
  S <= 2 ^ 120 -> IZR T / IZR dz + INR (length points) <= 2 ^ 44 ->
  StronglySorted (fun p q => (p + dz <= q)%Z) (map fst points) ->
  Forall (fun p => (Z.abs (fst p) <= T)%Z /\ finite32 (snd p)
                   /\ Rabs (R32 (snd p)) + exact_deviation eb (R32 (snd p)) <= S) points ->
  swing_offer_all N (swing_new N eb) (map widen offered) = (map widen points, m) ->
  forall t v, In (t, v) points ->
  Forall (fun g => finite32 g
          /\ Rabs (R32 v - R32 g) <= exact_deviation eb (R32 v) + rounding S T dz (length points))
    (swing_grid Pl (sw_start_time m) (sw_end_time m)
       (fst (swing_model Pl m)) (snd (swing_model Pl m)) [t]).
Proof.
  intros eb offered points m S T dz Heb Hlen Hdz HT HS Htau Hsort Hall H.
  apply swing_offer_fit in H. now apply swing_f64_near.
Qed.

Lemma swing_f64_within : forall eb offered points m S T dz, valid_error_bound eb ->
  (2 <= length points)%nat -> (1 <= dz)%Z -> (T <= 2 ^ 52)%Z ->
  S <= 2 ^ 120 -> IZR T / IZR dz + INR (length points) <= 2 ^ 44 ->
  StronglySorted (fun p q => (p + dz <= q)%Z) (map fst points) ->
  Forall (fun p => (Z.abs (fst p) <= T)%Z /\ finite32 (snd p)
                   /\ Rabs (R32 (snd p)) + exact_deviation eb (R32 (snd p)) <= S) points ->
  swing_offer_all N (swing_new N eb) (map widen offered) = (map widen points, m) ->
  forall t v, In (t, v) points -> rounding S T dz (length points) <= margin eb (R32 v) ->
  Forall (within_bound 0 eb v)
    (swing_grid Pl (sw_start_time m) (sw_end_time m)
       (fst (swing_model Pl m)) (snd (swing_model Pl m)) [t]).
Proof.
  intros eb offered points m S T dz Heb Hlen Hdz HT HS Htau Hsort Hall H t v Hin Hmargin.
  pose proof (swing_f64_offered eb offered points m S T dz Heb Hlen Hdz HT HS Htau Hsort Hall H t v Hin)
    as Hnear.
  assert (HS0 : 0 <= S).
  { rewrite Forall_forall in Hall. destruct (Hall _ Hin) as (_ & _ & Hs).
    pose proof (exact_deviation_nonneg eb Heb (R32 (snd (t, v)))).
    pose proof (Rabs_pos (R32 (snd (t, v)))). lra. }
  assert (HT0 : 0 <= IZR T).
  { apply IZR_le. rewrite Forall_forall in Hall. destruct (Hall _ Hin) as (Ht & _). cbn [fst] in Ht. lia. }
  apply (Forall_impl (P := fun g => finite32 g /\ Rabs (R32 v - R32 g)
           <= exact_deviation eb (R32 v) + rounding S T dz (length points))); [|exact Hnear].
  clear Hnear. intros g [Hg Hb]. right.
  assert (Hv : finite32 v) by (rewrite Forall_forall in Hall; apply (Hall _ Hin)).
  split; [exact Hv|]. split; [exact Hg|].
  destruct eb as [e|e|]; cbn [exact_deviation margin valid_error_bound] in *.
  - lra.
  - rewrite Rabs_mult, (Rabs_pos_eq (R32 e / (1001 / 10))) in Hb by lra.
    set (V := Rabs (R32 v)) in *.
    replace ((1 + 0) * (R32 e / 100) * V)
      with (V * (R32 e / (1001 / 10)) + R32 e / 100100 * V) by field. lra.
  - (* There is always a rounding error. *)
    exfalso. unfold rounding in Hmargin. destruct powers as (P22 & _ & P46 & P148 & _).
    rewrite P22, P46, P148 in Hmargin.
    assert (0 < half32) by apply bpow_gt_0.
    assert (0 <= S * (/ 4194304 + (IZR T / IZR dz + INR (length points)) / 70368744177664)).
    { assert (1 <= IZR dz) by (apply IZR_le; lia).
      assert (0 <= IZR T / IZR dz).
      { apply Rmult_le_pos; [lra|]. left. apply Rinv_0_lt_compat. lra. }
      pose proof (pos_INR (length points)). apply Rmult_le_pos; lra. }
    lra.
Qed.
End Bound.
