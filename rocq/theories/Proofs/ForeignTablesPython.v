(** Proofs about creating time series tables from Python. *)
From Coq Require Import ZArith Reals Lra Lia Bool String List Permutation.
From Flocq Require Import Core IEEE754.BinarySingleNaN IEEE754.Binary IEEE754.Bits.
From Verif Require Import Model.Base Model.Float Model.ErrorBound Model.Filters Model.Table
  Model.ForeignTables Spec.ErrorBoundSpec Spec.TableSpec Spec.ForeignTablesSpec
  Proofs.FloatProofs Proofs.ErrorBoundProofs Proofs.TableProofs Proofs.DefinitionProofs
  Proofs.ForeignTablesProofs.
Import ListNotations.
Open Scope R_scope.
Open Scope list_scope.

(** ** Rounding to f32 *)
Lemma rnd32_nearest : forall x y, generic_format radix2 fexp32 y ->
  Rabs (rnd32 x - x) <= Rabs (y - x).
Proof.
  intros x y H. destruct (round_N_pt radix2 fexp32 (fun z => negb (Z.even z)) x) as (_ & N).
  now apply N.
Qed.

(** The halves: 2^-150 and 2^128 - 2^103. *)
Definition f64_tiny : f64 := B754_finite 53 1024 false 4503599627370496 (-202) eq_refl.
Definition f64_huge : f64 := B754_finite 53 1024 false 9007198986305536 75 eq_refl.
Lemma tiny_value : R64 f64_tiny = bpow radix2 (-150).
Proof.
  unfold R64, f64_tiny, B2R, F2R. cbn [Fnum Fexp cond_Zopp].
  change (4503599627370496)%Z with (Zpower radix2 52). rewrite IZR_Zpower by discriminate.
  rewrite <- bpow_plus. reflexivity.
Qed.
Lemma huge_value : R64 f64_huge = bpow radix2 128 - bpow radix2 103.
Proof.
  unfold R64, f64_huge, B2R, F2R. cbn [Fnum Fexp cond_Zopp].
  change 128%Z with (25 + 28 + 75)%Z. change 103%Z with (28 + 75)%Z.
  rewrite !bpow_plus, <- !IZR_Zpower by discriminate.
  replace (Zpower radix2 25) with 33554432%Z by reflexivity.
  replace (Zpower radix2 28) with 268435456%Z by reflexivity.
  replace (IZR 9007198986305536) with (IZR (33554431 * 268435456)) by (f_equal; reflexivity).
  rewrite mult_IZR. replace (IZR 33554432) with (IZR 33554431 + 1) by (rewrite <- plus_IZR; reflexivity).
  ring.
Qed.

Lemma max_format : generic_format radix2 fexp32 (bpow radix2 128 - bpow radix2 104).
Proof.
  apply generic_format_FLT. exists (Float radix2 16777215 104); cbn [Fnum Fexp].
  - unfold F2R. cbn [Fnum Fexp]. change 128%Z with (24 + 104)%Z. rewrite bpow_plus.
    rewrite <- (IZR_Zpower radix2 24) by discriminate.
    change (Zpower radix2 24) with (16777215 + 1)%Z. rewrite plus_IZR. ring.
  - reflexivity.
  - discriminate.
Qed.

Lemma tiny_rounds : rnd32 (bpow radix2 (-150)) = 0.
Proof.
  rewrite <- tiny_value.
  assert (F : Rabs (rnd32 (R64 f64_tiny)) < bpow radix2 128).
  { rewrite <- rnd32_abs, Rabs_pos_eq by (rewrite tiny_value; apply bpow_ge_0).
    apply Rle_lt_trans with (rnd32 (bpow radix2 0)).
    - apply rnd32_le. rewrite tiny_value. now apply bpow_le.
    - unfold rnd32. rewrite round_generic; [now apply bpow_lt|typeclasses eauto|].
      now apply generic_format_bpow. }
  destruct (f32_of_f64_correct f64_tiny eq_refl F) as (_ & <-).
  assert (Z : match f32_of_f64 f64_tiny with B754_zero _ _ _ => true | _ => false end = true)
    by (vm_compute; reflexivity).
  destruct (f32_of_f64 f64_tiny); try discriminate. reflexivity.
Qed.

Lemma huge_rounds : bpow radix2 128 <= rnd32 (bpow radix2 128 - bpow radix2 103).
Proof.
  rewrite <- huge_value. destruct (Rle_or_lt (bpow radix2 128) (rnd32 (R64 f64_huge))) as [H|H];
    [exact H|]. exfalso.
  assert (F : Rabs (rnd32 (R64 f64_huge)) < bpow radix2 128).
  { rewrite Rabs_pos_eq; [exact H|]. rewrite <- rnd32_0. apply rnd32_le. rewrite huge_value.
    assert (bpow radix2 103 <= bpow radix2 128) by now apply bpow_le. lra. }
  destruct (f32_of_f64_correct f64_huge eq_refl F) as (X & _).
  assert (Z : is_finite 24 128 (f32_of_f64 f64_huge) = false) by (vm_compute; reflexivity).
  unfold finite32 in X. congruence.
Qed.

Lemma rnd32_zero_iff : forall x, 0 < x -> rnd32 x = 0 <-> x <= bpow radix2 (-150).
Proof.
  intros x P. split.
  - intros E.
    assert (G : generic_format radix2 fexp32 (bpow radix2 (-149))) by now apply generic_format_bpow.
    pose proof (rnd32_nearest x _ G) as N. rewrite E in N.
    destruct (Rle_or_lt x (bpow radix2 (-150))) as [H|H]; [exact H|]. exfalso.
    assert (B : bpow radix2 (-149) = 2 * bpow radix2 (-150)).
    { change (-149)%Z with (1 + -150)%Z. rewrite bpow_plus. reflexivity. }
    rewrite Rabs_left in N by lra.
    destruct (Rle_or_lt x (bpow radix2 (-149))).
    + rewrite Rabs_pos_eq in N by lra. lra.
    + rewrite Rabs_left in N by lra. pose proof (bpow_gt_0 radix2 (-149)). lra.
  - intros H. apply Rle_antisym.
    + rewrite <- tiny_rounds. now apply rnd32_le.
    + rewrite <- rnd32_0 at 1. apply rnd32_le. lra.
Qed.

Lemma rnd32_overflow_iff : forall x, 0 < x ->
  bpow radix2 128 <= rnd32 x <-> bpow radix2 128 - bpow radix2 103 <= x.
Proof.
  intros x P. split.
  - intros E. pose proof (rnd32_nearest x _ max_format) as N.
    assert (B : bpow radix2 104 = 2 * bpow radix2 103).
    { change 104%Z with (1 + 103)%Z. rewrite bpow_plus. reflexivity. }
    destruct (Rle_or_lt (bpow radix2 128 - bpow radix2 103) x) as [H|H]; [exact H|]. exfalso.
    pose proof (bpow_gt_0 radix2 103).
    rewrite (Rabs_pos_eq (rnd32 x - x)) in N by lra.
    unfold Rabs in N. destruct (Rcase_abs (bpow radix2 128 - bpow radix2 104 - x)); lra.
  - intros H. eapply Rle_trans; [apply huge_rounds|]. now apply rnd32_le.
Qed.

Lemma f32_of_f64_overflow : forall x, finite64 x -> bpow radix2 128 <= Rabs (rnd32 (R64 x)) ->
  ~ finite32 (f32_of_f64 x).
Proof.
  intros [s|s|s pl Hpl|s m e Hme] Hf H; try discriminate.
  - exfalso. change (R64 (B754_zero 53 1024 s)) with 0 in H. rewrite rnd32_0, Rabs_R0 in H.
    pose proof (bpow_gt_0 radix2 128). lra.
  - unfold f32_of_f64.
    generalize (binary_normalize_correct 24 128 eq_refl eq_refl mode_NE
                  (cond_Zopp s (Zpos m)) e s).
    change (F2R {| Fnum := cond_Zopp s (Z.pos m); Fexp := e |})
      with (R64 (B754_finite 53 1024 s m e Hme)).
    change (round radix2 (SpecFloat.fexp 24 128) (round_mode mode_NE)
              (R64 (B754_finite 53 1024 s m e Hme)))
      with (rnd32 (R64 (B754_finite 53 1024 s m e Hme))).
    rewrite Rlt_bool_false by exact H. intros E F. unfold finite32 in F.
    destruct (binary_normalize _ _ _ _ _ _ _ _); try discriminate; cbn in E; try discriminate.
Qed.

Lemma rnd32_close : forall x, 0 < x ->
  Rabs (rnd32 x - x) <= bpow radix2 (-24) * x + bpow radix2 (-150).
Proof.
  intros x P. destruct (Rle_or_lt (bpow radix2 (-126)) x) as [H|H].
  - assert (A : bpow radix2 (-126) <= Rabs x) by (rewrite Rabs_pos_eq; lra).
    apply rnd32_error in A. rewrite (Rabs_pos_eq x) in A by lra.
    replace (bpow radix2 (-24)) with u32r by (unfold u32r; cbn; lra).
    pose proof (bpow_gt_0 radix2 (-150)). lra.
  - assert (A : Rabs (rnd32 x - x) <= / 2 * ulp radix2 fexp32 x).
    { unfold rnd32. apply error_le_half_ulp. typeclasses eauto. }
    assert (U : ulp radix2 fexp32 x = bpow radix2 (-149)).
    { apply ulp_FLT_small; [typeclasses eauto|]. rewrite Rabs_pos_eq by lra.
      eapply Rlt_le_trans; [exact H|]. now apply bpow_le. }
    rewrite U in A. change (-149)%Z with (1 + -150)%Z in A. rewrite bpow_plus in A.
    change (bpow radix2 1) with 2 in A.
    pose proof (Rmult_le_pos _ _ (bpow_ge_0 radix2 (-24)) (Rlt_le _ _ P)). lra.
Qed.

(** ** Error bounds in Python *)
Lemma f64_100_value : finite64 f64_100 /\ R64 f64_100 = 100.
Proof.
  assert (H : f64_100 = B754_finite 53 1024 false 7036874417766400 (-46) eq_refl).
  { apply B2FF_inj. vm_compute. reflexivity. }
  rewrite H. split; [reflexivity|]. unfold R64, B2R, F2R. cbn [Fnum Fexp cond_Zopp].
  change (bpow radix2 (-46)) with (/ IZR 70368744177664).
  change 7036874417766400%Z with (100 * 70368744177664)%Z. rewrite mult_IZR. field.
Qed.

Lemma make_bound_ok : forall b,
  make_bound b = if Bool.bool_dec (is_ok (make_bound b)) true then Ok b else Err.
Proof.
  intros [v|v]; unfold make_bound; destruct (negb _ || _) || destruct (negb (_ && _)); reflexivity.
Qed.

Lemma make_bound_iff : forall b b', make_bound b = Ok b' <-> b' = b /\ valid_in_python b.
Proof.
  assert (Hz : finite64 f64_zero) by reflexivity. destruct f64_100_value as (H1 & H2).
  intros [v|v] b'; unfold make_bound.
  - destruct (f64_is_finite v) eqn:F; cbn [negb orb].
    + pose proof (f64_le_iff v f64_zero F Hz) as L. change (R64 f64_zero) with 0 in L.
      destruct (f64_le v f64_zero).
      * split; [discriminate|]. intros (_ & _ & P). assert (R64 v <= 0) by now apply L. lra.
      * assert (P : 0 < R64 v).
        { destruct (Rlt_or_le 0 (R64 v)); [assumption|]. assert (false = true) by now apply L.
          discriminate. }
        split; [intros E; injection E as <-; repeat split; assumption|]. now intros (-> & _).
    + split; [discriminate|]. intros (_ & X & _). unfold finite64 in X. unfold f64_is_finite in F.
      congruence.
  - destruct (Bool.bool_dec (is_finite 53 1024 v) true) as [F|F].
    + pose proof (f64_lt_iff f64_zero v Hz F) as L. change (R64 f64_zero) with 0 in L.
      pose proof (f64_le_iff v f64_100 F H1) as L'. rewrite H2 in L'.
      destruct (f64_lt f64_zero v), (f64_le v f64_100); cbn [negb andb].
      * split; [intros E; injection E as <-|now intros (-> & _)]. split; [reflexivity|].
        split; [exact F|]. split; [now apply L|now apply L'].
      * split; [discriminate|]. intros (_ & _ & _ & X). apply L' in X. discriminate.
      * split; [discriminate|]. intros (_ & _ & X & _). apply L in X. discriminate.
      * split; [discriminate|]. intros (_ & _ & X & _). apply L in X. discriminate.
    + split; [|intros (_ & X & _); contradiction].
      destruct v as [s|s|s pl Hpl|s m e Hme]; try (exfalso; now apply F).
      * destruct s; vm_compute; discriminate.
      * vm_compute; discriminate.
Qed.

Lemma make_bounds_iff : forall bounds bounds', make_bounds bounds = Ok bounds' <->
  bounds' = bounds /\ Forall (fun b => valid_in_python (snd b)) bounds.
Proof.
  induction bounds as [|[n b] bounds IH]; intros bounds'; cbn [make_bounds].
  - split; [intros E; injection E as <-; now split|now intros (-> & _)].
  - pose proof (make_bound_iff b) as M. destruct (make_bound b) as [b'| |]; cbn [bind].
    + destruct (proj1 (M b') eq_refl) as (-> & V).
      destruct (make_bounds bounds) as [bs| |]; cbn [bind].
      * destruct (proj1 (IH bs) eq_refl) as (-> & F).
        split; [intros E; injection E as <-; now repeat constructor|now intros (-> & _)].
      * split; [discriminate|]. intros (_ & F). apply Forall_inv_tail in F.
        assert (@Err (list (string * python_bound)) = Ok bounds) by now apply IH. discriminate.
      * split; [discriminate|]. intros (_ & F). apply Forall_inv_tail in F.
        assert (@Panic (list (string * python_bound)) = Ok bounds) by now apply IH. discriminate.
    + split; [discriminate|]. intros (_ & F). apply Forall_inv in F. cbn in F.
      assert (@Err python_bound = Ok b) by now apply M. discriminate.
    + split; [discriminate|]. intros (_ & F). apply Forall_inv in F. cbn in F.
      assert (@Panic python_bound = Ok b) by now apply M. discriminate.
Qed.

Lemma make_bounds_no_panic : forall bounds, make_bounds bounds <> Panic.
Proof.
  induction bounds as [|[n b] bounds IH]; cbn [make_bounds]; [discriminate|].
  rewrite make_bound_ok. destruct (bool_dec _ _); cbn [bind]; [|discriminate].
  destruct (make_bounds bounds); cbn [bind]; congruence.
Qed.

Definition signed (b : python_bound) : f64 :=
  match b with AbsoluteErrorBound v => v | RelativeErrorBound v => f64_neg v end.
Definition magnitude (b : python_bound) : f64 :=
  match b with AbsoluteErrorBound v | RelativeErrorBound v => v end.

Lemma encoded_value : forall b, valid_in_python b -> ~ too_large (magnitude b) ->
  finite32 (encoded b)
  /\ R32 (encoded b) = match b with AbsoluteErrorBound v => rnd32 (R64 v)
                                  | RelativeErrorBound v => - rnd32 (R64 v) end.
Proof.
  intros b V L.
  assert (P : 0 < R64 (magnitude b)) by (destruct b; cbn in *; tauto).
  assert (B : 0 <= rnd32 (R64 (magnitude b))).
  { rewrite <- rnd32_0. apply rnd32_le. lra. }
  assert (O : rnd32 (R64 (magnitude b)) < bpow radix2 128).
  { apply Rnot_le_lt. intros X. apply L. unfold too_large. now apply rnd32_overflow_iff. }
  unfold encoded. destruct b as [v|v]; cbn [magnitude] in *.
  - destruct V as (F & _). apply f32_of_f64_correct; [exact F|]. rewrite Rabs_pos_eq; assumption.
  - destruct V as (F & _). destruct (f64_neg_finite v F) as (F' & N).
    rewrite <- rnd32_opp, <- N. apply f32_of_f64_correct; [exact F'|].
    rewrite N, rnd32_opp, Rabs_Ropp, Rabs_pos_eq; assumption.
Qed.

Lemma rnd32_100 : rnd32 100 = 100.
Proof. destruct f32_100_correct as (F & E). rewrite <- E. apply rnd32_id. Qed.

Lemma relative_not_large : forall v, R64 v <= 100 -> ~ too_large v.
Proof.
  intros v H L. unfold too_large in L.
  assert (bpow radix2 127 <= bpow radix2 128 - bpow radix2 103).
  { assert (bpow radix2 103 <= bpow radix2 127) by now apply bpow_le.
    change 128%Z with (1 + 127)%Z. rewrite bpow_plus. change (bpow radix2 1) with 2. lra. }
  assert (bpow radix2 7 <= bpow radix2 127) by now apply bpow_le.
  assert (bpow radix2 7 = 128) by (cbn; lra). lra.
Qed.

Lemma encoded_usable : forall b, valid_in_python b ->
  (meaningful (encoded b) /\ R32 (encoded b) <> 0) <-> ~ not_an_f32 b.
Proof.
  intros b V.
  assert (P : 0 < R64 (magnitude b)) by (destruct b; cbn in *; tauto).
  assert (TZ : too_small (magnitude b) <-> rnd32 (R64 (magnitude b)) = 0).
  { unfold too_small. symmetry. now apply rnd32_zero_iff. }
  destruct b as [v|v]; cbn [magnitude not_an_f32] in *.
  - split.
    + intros ((F & _) & N) [S|L].
      * apply TZ in S. apply N. destruct (encoded_value (AbsoluteErrorBound v) V) as (_ & E).
        { intros L. unfold too_large in L. cbn [magnitude] in L.
          apply rnd32_overflow_iff in L; [|assumption]. rewrite S in L.
          pose proof (bpow_gt_0 radix2 128). lra. }
        rewrite E. exact S.
      * revert F. apply f32_of_f64_overflow; [apply V|]. unfold too_large in L.
        apply rnd32_overflow_iff in L; [|assumption]. eapply Rle_trans; [exact L|apply Rle_abs].
    + intros N. destruct (encoded_value (AbsoluteErrorBound v) V) as (F & E); [cbn; tauto|].
      assert (0 <= rnd32 (R64 v)) by (rewrite <- rnd32_0; apply rnd32_le; lra).
      unfold meaningful. rewrite E. split; [split; [exact F|lra]|]. tauto.
  - destruct V as (F0 & V0 & V1). assert (L : ~ too_large v) by now apply relative_not_large.
    destruct (encoded_value (RelativeErrorBound v)) as (F & E); [cbn; tauto|exact L|].
    unfold meaningful. rewrite E. split.
    + intros (_ & N) S. apply TZ in S. lra.
    + intros N. assert (rnd32 (R64 v) <= 100) by (rewrite <- rnd32_100; now apply rnd32_le).
      split; [split; [exact F|lra]|]. intros Z. apply N, TZ. lra.
Qed.

Lemma encoded_means : forall b eb, valid_in_python b -> ~ not_an_f32 b ->
  stands_for (encoded b) eb -> means_in_python b eb.
Proof.
  intros b eb V N S.
  assert (P : 0 < R64 (magnitude b)) by (destruct b; cbn in *; tauto).
  assert (TZ : too_small (magnitude b) <-> rnd32 (R64 (magnitude b)) = 0).
  { unfold too_small. symmetry. now apply rnd32_zero_iff. }
  assert (P' : 0 < rnd32 (R64 (magnitude b))).
  { assert (0 <= rnd32 (R64 (magnitude b))) by (rewrite <- rnd32_0; apply rnd32_le; lra).
    assert (rnd32 (R64 (magnitude b)) <> 0); [|lra]. intros Z. apply TZ in Z. apply N.
    destruct b; cbn in *; tauto. }
  assert (L : ~ too_large (magnitude b)).
  { destruct b as [v|v]; cbn in *; [tauto|]. now apply relative_not_large. }
  destruct (encoded_value b V L) as (F & E).
  assert (C : forall e, R32 e = rnd32 (R64 (magnitude b)) -> close (magnitude b) e).
  { intros e He. unfold close. rewrite He. split; [now apply rnd32_close|].
    intros x Fx. apply rnd32_nearest. apply format32. }
  destruct b as [v|v]; cbn [magnitude] in *; destruct eb as [e|e|]; cbn in S; rewrite ?E in S; try lra.
  - destruct S as (_ & ->). cbn [means_in_python valid_error_bound]. rewrite E.
    split; [split; [exact F|exact P']|]. now apply C.
  - destruct S as (_ & Fe & Ee). rewrite Ropp_involutive in Ee. cbn [means_in_python valid_error_bound].
    rewrite Ee. split; [|now apply C]. split; [exact Fe|]. split; [exact P'|].
    rewrite <- rnd32_100. apply rnd32_le. apply V.
Qed.

(** ** Python *)
Lemma occurs_iff : forall columns n, occurs_once columns n = true <->
  exists before t after, columns = before ++ (n, t) :: after
    /\ ~ In n (map fst before) /\ ~ In n (map fst after).
Proof.
  assert (Z : forall (columns : list column) n,
            filter (fun c => String.eqb (fst c) n) columns = [] <-> ~ In n (map fst columns)).
  { intros columns n. induction columns as [|[a t] columns IH]; cbn [filter map fst In]; [tauto|].
    destruct (String.eqb_spec a n) as [->|N]; [|tauto]. split; [discriminate|tauto]. }
  intros columns n. unfold occurs_once. rewrite Nat.eqb_eq. split.
  - induction columns as [|[a t] columns IH]; cbn [filter fst length]; [discriminate|].
    destruct (String.eqb_spec a n) as [->|N]; cbn [length].
    + intros H. exists [], t, columns. split; [reflexivity|]. split; [tauto|]. apply Z.
      apply length_zero_iff_nil. now injection H.
    + intros H. destruct (IH H) as (before & u & after & -> & A & B).
      exists ((a, t) :: before), u, after. split; [reflexivity|]. split; [|exact B].
      cbn. tauto.
  - intros (before & t & after & -> & A & B). rewrite filter_app. cbn [filter fst].
    rewrite String.eqb_refl. apply Z in A, B. rewrite A, B. reflexivity.
Qed.

Lemma occurs_unique : forall columns n, NoDup (map fst columns) ->
  occurs_once columns n = true <-> In n (map fst columns).
Proof.
  intros columns n ND. rewrite occurs_iff. split.
  - intros (before & t & after & -> & _). rewrite map_app. apply in_or_app. right. now left.
  - intros H. apply in_map_iff in H. destruct H as ((a & t) & <- & H). apply in_split in H.
    destruct H as (before & after & ->). exists before, t, after. cbn [fst].
    rewrite map_app in ND. cbn [map fst] in ND. apply NoDup_remove_2 in ND.
    split; [reflexivity|]. rewrite in_app_iff in ND. tauto.
Qed.

Section Python.
Context (order : list string -> list string) (Ho : enumerates order).
Context (parse : string -> outcome expr).
Context (dict_order : list (string * f32) -> list (string * f32)).
Context (Hd : forall l, Permutation (dict_order l) l).

Definition entries_of (bounds : list (string * python_bound)) : list (string * f32) :=
  map (fun entry => (fst entry, encoded (snd entry))) bounds.

Lemma names_of_entries : forall bounds,
  Permutation (map fst (dict_order (entries_of bounds))) (map fst bounds).
Proof.
  intros bounds. eapply Permutation_trans; [apply Permutation_map, Hd|].
  unfold entries_of. rewrite map_map. cbn [fst]. apply Permutation_refl.
Qed.

Lemma python_inv : forall name columns bounds generated m,
  python_create order parse dict_order name columns bounds generated = Ok m ->
  Forall (fun b => valid_in_python (snd b)) bounds
  /\ check_if_column_exists (map fst bounds) columns = true
  /\ check_if_column_exists (map fst generated) columns = true
  /\ c_create order parse name columns (dict_order (entries_of bounds)) generated = Ok m.
Proof.
  intros name columns bounds generated m. unfold python_create.
  destruct (make_bounds bounds) as [bs| |] eqn:E; cbn [bind]; try discriminate.
  apply make_bounds_iff in E. destruct E as (-> & V).
  destruct (check_if_column_exists (map fst bounds) columns) eqn:C1; cbn [negb]; [|discriminate].
  destruct (check_if_column_exists (map fst generated) columns) eqn:C2; cbn [negb]; [|discriminate].
  now repeat split.
Qed.

Lemma usable_iff : forall bounds, Forall (fun b => valid_in_python (snd b)) bounds ->
  Forall (fun e => meaningful (snd e) /\ R32 (snd e) <> 0) (dict_order (entries_of bounds))
  <-> Forall (fun b => ~ not_an_f32 (snd b)) bounds.
Proof.
  intros bounds V. rewrite (Forall_forall _ (dict_order _)), (Forall_forall _ bounds).
  rewrite Forall_forall in V. split.
  - intros H b HI. apply encoded_usable; [now apply V|].
    apply (H (fst b, encoded (snd b))).
    apply (Permutation_in _ (Permutation_sym (Hd _))). apply in_map_iff. now exists b.
  - intros H e HI. apply (Permutation_in _ (Hd _)) in HI. apply in_map_iff in HI.
    destruct HI as (b & <- & HI). cbn [snd]. apply encoded_usable; auto.
Qed.

Lemma python_asked : forall name columns bounds generated m,
  NoDup (map fst bounds) -> NoDup (map fst generated) ->
  python_create order parse dict_order name columns bounds generated = Ok m ->
  as_asked means_in_python parse name columns bounds generated m.
Proof.
  intros name columns bounds generated m N1 N2 H. apply python_inv in H.
  destruct H as (V & _ & _ & H).
  assert (N3 : NoDup (map fst (dict_order (entries_of bounds)))).
  { eapply Permutation_NoDup; [apply Permutation_sym, names_of_entries|exact N1]. }
  assert (X : Forall (fun b => ~ not_an_f32 (snd b)) bounds).
  { apply usable_iff; [exact V|].
    apply (c_accepted order Ho parse name columns _ generated N3 N2). now exists m. }
  apply (c_asked order Ho parse) in H; [|assumption|assumption]. destruct H as [A1 A2 A3 A4 A5].
  constructor; try assumption. clear - A4 V X Hd.
  induction A4 as [|c eb l k (B1 & B2) A4 IH]; constructor; [|exact IH]. split.
  - intros b HI. rewrite Forall_forall in V, X.
    apply encoded_means; [now apply (V _ HI)|now apply (X _ HI)|]. apply B1.
    apply (Permutation_in _ (Permutation_sym (Hd _))). apply in_map_iff. now exists (fst c, b).
  - intros NI. apply B2. intros Y. apply NI.
    eapply Permutation_in; [apply names_of_entries|exact Y].
Qed.

Lemma python_accepted : forall name columns bounds generated,
  NoDup (map fst bounds) -> NoDup (map fst generated) ->
  (exists m, python_create order parse dict_order name columns bounds generated = Ok m)
  <-> acceptable parse columns generated
      /\ incl (map fst bounds) (map fst columns) /\ incl (map fst generated) (map fst columns)
      /\ Forall (fun b => valid_in_python (snd b) /\ ~ not_an_f32 (snd b)) bounds.
Proof.
  intros name columns bounds generated N1 N2.
  assert (N3 : NoDup (map fst (dict_order (entries_of bounds)))).
  { eapply Permutation_NoDup; [apply Permutation_sym, names_of_entries|exact N1]. }
  assert (CI : NoDup (map fst columns) -> forall names,
            check_if_column_exists names columns = true <-> incl names (map fst columns)).
  { intros ND names. unfold check_if_column_exists. rewrite forallb_forall.
    split; intros H n HI; apply occurs_unique; auto. }
  pose proof (c_accepted order Ho parse name columns (dict_order (entries_of bounds)) generated N3 N2)
    as CA.
  split.
  - intros (m & H). apply python_inv in H. destruct H as (V & C1 & C2 & H).
    destruct (proj1 CA (ex_intro _ m H)) as (A & U).
    split; [exact A|]. pose proof (CI (names_once _ _ _ A)) as CI'.
    split; [now apply CI'|]. split; [now apply CI'|].
    apply usable_iff in U; [|exact V]. rewrite Forall_forall in *. auto.
  - intros (A & I1 & I2 & F). pose proof (CI (names_once _ _ _ A)) as CI'.
    apply CI' in I1, I2.
    assert (V : Forall (fun b => valid_in_python (snd b)) bounds).
    { eapply Forall_impl; [|exact F]. now intros b (V & _). }
    unfold python_create.
    assert (make_bounds bounds = Ok bounds) as -> by now apply make_bounds_iff. cbn [bind].
    rewrite I1, I2. cbn [negb]. apply CA. split; [exact A|]. apply usable_iff; [exact V|].
    eapply Forall_impl; [|exact F]. now intros b (_ & N).
Qed.

Lemma python_aborts : forall name columns bounds generated,
  (forall text, parse text <> Panic) -> NoDup (map fst columns) ->
  NoDup (map fst bounds) -> NoDup (map fst generated) ->
  python_create order parse dict_order name columns bounds generated = Panic
  <-> incl (map fst bounds) (map fst columns) /\ incl (map fst generated) (map fst columns)
      /\ Forall (fun b => valid_in_python (snd b)) bounds
      /\ Exists (fun b => not_an_f32 (snd b)) bounds.
Proof.
  intros name columns bounds generated HP ND N1 N2.
  assert (CI : forall names,
            check_if_column_exists names columns = true <-> incl names (map fst columns)).
  { intros names. unfold check_if_column_exists. rewrite forallb_forall.
    split; intros H n HI; apply occurs_unique; auto. }
  assert (EX : Forall (fun b => valid_in_python (snd b)) bounds ->
            (Exists (fun e => ~ meaningful (snd e) \/ R32 (snd e) = 0) (dict_order (entries_of bounds))
             <-> Exists (fun b => not_an_f32 (snd b)) bounds)).
  { intros V. rewrite !Exists_exists. rewrite Forall_forall in V. split.
    - intros (e & HI & H). apply (Permutation_in _ (Hd _)) in HI. apply in_map_iff in HI.
      destruct HI as (b & <- & HI). exists b. split; [exact HI|]. cbn [snd] in H.
      pose proof (encoded_usable (snd b) (V b HI)) as U.
      assert (D : not_an_f32 (snd b) \/ ~ not_an_f32 (snd b)).
      { destruct (snd b) as [v|v]; cbn; unfold too_small, too_large;
          destruct (Rle_dec (R64 v) (bpow radix2 (-150)));
          destruct (Rle_dec (bpow radix2 128 - bpow radix2 103) (R64 v)); tauto. }
      destruct D as [D|D]; [exact D|]. apply U in D. tauto.
    - intros (b & HI & H). exists (fst b, encoded (snd b)). split.
      + apply (Permutation_in _ (Permutation_sym (Hd _))). apply in_map_iff. now exists b.
      + cbn [snd]. destruct (Req_dec (R32 (encoded (snd b))) 0) as [Z|Z]; [now right|]. left.
        intros M. apply (proj1 (encoded_usable (snd b) (V b HI)) (conj M Z)). exact H. }
  unfold python_create. pose proof (make_bounds_no_panic bounds) as MN.
  destruct (make_bounds bounds) as [bs| |] eqn:E; cbn [bind]; [| |congruence].
  - apply make_bounds_iff in E. destruct E as (-> & V).
    pose proof (CI (map fst bounds)) as C1. pose proof (CI (map fst generated)) as C2.
    destruct (check_if_column_exists (map fst bounds) columns); cbn [negb].
    + destruct (check_if_column_exists (map fst generated) columns); cbn [negb].
      * change (map (fun entry => (fst entry, encoded (snd entry))) bounds) with (entries_of bounds).
        rewrite (c_aborts order Ho parse) by assumption. rewrite (EX V). intuition.
      * split; [discriminate|]. intros (_ & X & _). apply C2 in X. discriminate.
    + split; [discriminate|]. intros (X & _). apply C1 in X. discriminate.
  - split; [discriminate|]. intros (_ & _ & V & _).
    assert (X : make_bounds bounds = Ok bounds) by now apply make_bounds_iff. congruence.
Qed.
End Python.
