(** Time series tables created from C and Python. *)
From Coq Require Import ZArith Reals Lra Lia Bool String List Permutation.
From Flocq Require Import Core IEEE754.BinarySingleNaN IEEE754.Binary IEEE754.Bits.
From Verif Require Import Model.Base Model.Float Model.ErrorBound Model.Filters Model.Table
  Model.ForeignTables Spec.ErrorBoundSpec Spec.TableSpec Spec.ForeignTablesSpec
  Proofs.FloatProofs Proofs.ErrorBoundProofs Proofs.ForeignTablesProofs Proofs.ForeignTablesPython.
Import ListNotations.
Open Scope string_scope.
Open Scope R_scope.
Open Scope list_scope.

(** A table with a timestamp, a tag, two stored fields and a generated field. *)
Definition columns_w : list column :=
  [("time", Timestamp_us); ("tag", Utf8View); ("wind", Float32); ("power", Float32);
   ("double", Float32)].
Definition generated_w : list (string * string) := [("double", "power + power")].
Definition parse_w (text : string) : outcome expr :=
  if String.eqb text "power + power" then Ok (Binary (Column "power") (Operator 0) (Column "power")) else Err.
Definition same_order (names : list string) : list string := names.
Definition reversed (entries : list (string * f32)) : list (string * f32) := rev entries.

Lemma parse_w_no_panic : forall text, parse_w text <> Panic.
Proof. intros text. unfold parse_w. destruct (String.eqb _ _); discriminate. Qed.
Lemma same_order_ok : enumerates same_order.
Proof. intros l. apply Permutation_refl. Qed.
Lemma reversed_ok : forall l, Permutation (reversed l) l.
Proof. intros l. apply Permutation_sym, Permutation_rev. Qed.

Lemma acceptable_w : acceptable parse_w columns_w generated_w.
Proof.
  constructor.
  - apply unique_iff. reflexivity.
  - cbn. lia.
  - intros c. cbn. intros H. intuition; subst; cbn; tauto.
  - exists "time". cbn. split; [tauto|]. split; [intuition discriminate|].
    intros n H _. intuition congruence.
  - exists "wind". cbn. split; [tauto|]. intuition discriminate.
  - intros n text _ [H|[]]. injection H as <- <-. eexists. split; [reflexivity|].
    cbn. intros source H. assert (source = "power") as -> by intuition. split; [tauto|].
    intuition discriminate.
Qed.

(** Values as f32. *)
Definition half : f32 := B754_finite 24 128 false 8388608 (-24) eq_refl.
Definition minus_ten : f32 := B754_finite 24 128 true 10485760 (-20) eq_refl.
Definition minus_101 : f32 := B754_finite 24 128 true 13238272 (-17) eq_refl.
Lemma half_value : R32 half = / 2.
Proof.
  unfold R32, half, B2R, F2R. cbn [Fnum Fexp cond_Zopp].
  change (bpow radix2 (-24)) with (/ IZR 16777216). change 16777216%Z with (2 * 8388608)%Z.
  rewrite mult_IZR. field.
Qed.
Lemma minus_ten_value : R32 minus_ten = -10.
Proof.
  unfold R32, minus_ten, B2R, F2R. cbn [Fnum Fexp cond_Zopp].
  change (bpow radix2 (-20)) with (/ IZR 1048576). change (Z.opp 10485760)%Z with (-10 * 1048576)%Z.
  rewrite mult_IZR. field.
Qed.
Lemma minus_101_value : R32 minus_101 = -101.
Proof.
  unfold R32, minus_101, B2R, F2R. cbn [Fnum Fexp cond_Zopp].
  change (bpow radix2 (-17)) with (/ IZR 131072). change (Z.opp 13238272)%Z with (-101 * 131072)%Z.
  rewrite mult_IZR. field.
Qed.

Definition entries_w : list (string * f32) := [("power", minus_ten); ("wind", half)].
Lemma entries_w_ok : Forall (fun e => meaningful (snd e) /\ R32 (snd e) <> 0) entries_w.
Proof.
  constructor; [|constructor; [|constructor]]; cbn [snd]; unfold meaningful.
  - rewrite minus_ten_value. repeat split; lra.
  - rewrite half_value. repeat split; lra.
Qed.

Lemma created_case : exists m,
  c_create same_order parse_w "table" columns_w entries_w generated_w = Ok m
  /\ schema m = firstn 4 columns_w
  /\ error_bounds m = [Lossless; Lossless; Absolute half; Relative (f32_neg minus_ten)].
Proof. eexists. split; [reflexivity|]. split; reflexivity. Qed.

(** A value of zero. *)
Lemma zero_case : acceptable parse_w columns_w generated_w
  /\ Forall (fun e => meaningful (snd e)) [("wind", f32_zero)]
  /\ stands_for f32_zero Lossless
  /\ forall order, enumerates order ->
       c_create order parse_w "table" columns_w [("wind", f32_zero)] generated_w = Panic.
Proof.
  split; [apply acceptable_w|]. split.
  { constructor; [|constructor]. cbn [snd]. unfold meaningful.
    change (R32 f32_zero) with 0. split; [reflexivity|lra]. }
  split; [reflexivity|]. intros order Ho. apply (c_aborts order Ho); [apply parse_w_no_panic| |].
  - apply unique_iff. reflexivity.
  - left. right. reflexivity.
Qed.

(** A relative error bound of 101%. *)
Lemma invalid_case : finite32 minus_101 /\ ~ meaningful minus_101
  /\ forall order, enumerates order ->
       c_create order parse_w "table" columns_w [("wind", minus_101)] generated_w = Panic.
Proof.
  assert (N : ~ meaningful minus_101).
  { unfold meaningful. rewrite minus_101_value. lra. }
  split; [reflexivity|]. split; [exact N|]. intros order Ho.
  apply (c_aborts order Ho); [apply parse_w_no_panic| |].
  - apply unique_iff. reflexivity.
  - left. now left.
Qed.

(** A name that is not the name of a column. *)
Lemma unknown_case : ~ In "pover" (map fst columns_w) /\ exists m,
  c_create same_order parse_w "table" columns_w [("pover", half)] generated_w = Ok m
  /\ Forall (fun eb => eb = Lossless) (error_bounds m).
Proof.
  split; [cbn; intuition discriminate|]. eexists. split; [reflexivity|]. repeat constructor.
Qed.

(** Python *)
Definition f64_half : f64 := B754_finite 53 1024 false 4503599627370496 (-53) eq_refl.
Definition f64_tenth : f64 := B754_finite 53 1024 false 7205759403792794 (-56) eq_refl.
Definition f64_least : f64 := B754_finite 53 1024 false 1 (-1074) eq_refl.
Definition f64_most : f64 := B754_finite 53 1024 false 9007199254740991 971 eq_refl.

Definition bounds_w : list (string * python_bound) :=
  [("wind", AbsoluteErrorBound f64_half); ("power", RelativeErrorBound f64_tenth)].

Lemma f64_half_value : R64 f64_half = / 2.
Proof.
  unfold R64, f64_half, B2R, F2R. cbn [Fnum Fexp cond_Zopp].
  change (4503599627370496)%Z with (Zpower radix2 52). rewrite IZR_Zpower by discriminate.
  rewrite <- bpow_plus. cbn. lra.
Qed.
Lemma f64_tenth_value : / 11 < R64 f64_tenth < / 9.
Proof.
  unfold R64, f64_tenth, B2R, F2R. cbn [Fnum Fexp cond_Zopp].
  change (bpow radix2 (-56)) with (/ IZR 72057594037927936).
  assert (P : 0 < IZR 72057594037927936) by (apply IZR_lt; reflexivity).
  split.
  - apply Rmult_lt_reg_r with (11 * IZR 72057594037927936); [lra|].
    replace (/ 11 * (11 * IZR 72057594037927936)) with (IZR 72057594037927936) by field.
    replace (IZR 7205759403792794 * / IZR 72057594037927936 * (11 * IZR 72057594037927936))
      with (IZR 7205759403792794 * 11) by (field; lra).
    rewrite <- mult_IZR. apply IZR_lt. reflexivity.
  - apply Rmult_lt_reg_r with (9 * IZR 72057594037927936); [lra|].
    replace (/ 9 * (9 * IZR 72057594037927936)) with (IZR 72057594037927936) by field.
    replace (IZR 7205759403792794 * / IZR 72057594037927936 * (9 * IZR 72057594037927936))
      with (IZR 7205759403792794 * 9) by (field; lra).
    rewrite <- mult_IZR. apply IZR_lt. reflexivity.
Qed.

Lemma small_bpow : bpow radix2 (-150) < / 11.
Proof.
  apply Rlt_trans with (bpow radix2 (-4)); [now apply bpow_lt|]. cbn. lra.
Qed.

Lemma python_case : acceptable parse_w columns_w generated_w
  /\ incl (map fst bounds_w) (map fst columns_w) /\ incl (map fst generated_w) (map fst columns_w)
  /\ Forall (fun b => valid_in_python (snd b) /\ ~ not_an_f32 (snd b)) bounds_w.
Proof.
  split; [apply acceptable_w|]. split; [intros n; cbn; tauto|]. split; [intros n; cbn; tauto|].
  pose proof f64_half_value. pose proof f64_tenth_value. pose proof small_bpow.
  assert (L : ~ too_large f64_half) by (apply relative_not_large; lra).
  constructor; [|constructor; [|constructor]]; cbn [snd valid_in_python not_an_f32];
    unfold too_small.
  - split; [split; [reflexivity|lra]|]. intros [X|X]; [lra|now apply L].
  - split; [split; [reflexivity|lra]|]. lra.
Qed.

(** The least positive and the largest f64 values. *)
Lemma f64_least_small : 0 < R64 f64_least <= bpow radix2 (-150).
Proof.
  unfold R64, f64_least, B2R, F2R. cbn [Fnum Fexp cond_Zopp]. rewrite Rmult_1_l.
  split; [apply bpow_gt_0|now apply bpow_le].
Qed.
Lemma f64_most_large : bpow radix2 128 <= R64 f64_most.
Proof.
  unfold R64, f64_most, B2R, F2R. cbn [Fnum Fexp cond_Zopp].
  apply Rle_trans with (1 * bpow radix2 971).
  - rewrite Rmult_1_l. now apply bpow_le.
  - apply Rmult_le_compat_r; [apply bpow_ge_0|]. apply IZR_le. discriminate.
Qed.

Lemma python_abort_case : acceptable parse_w columns_w generated_w
  /\ Forall (fun b => valid_in_python b
       /\ forall order dict_order, enumerates order -> (forall l, Permutation (dict_order l) l) ->
            python_create order parse_w dict_order "table" columns_w [("wind", b)] generated_w = Panic)
       [AbsoluteErrorBound f64_least; AbsoluteErrorBound f64_most; RelativeErrorBound f64_least].
Proof.
  split; [apply acceptable_w|].
  pose proof f64_least_small as (L1 & L2). pose proof f64_most_large as M.
  pose proof (bpow_gt_0 radix2 103). pose proof (bpow_gt_0 radix2 128).
  assert (R64 f64_least <= 100). { pose proof small_bpow. lra. }
  assert (G : forall b, valid_in_python b -> not_an_f32 b -> valid_in_python b
       /\ forall order dict_order, enumerates order -> (forall l, Permutation (dict_order l) l) ->
            python_create order parse_w dict_order "table" columns_w [("wind", b)] generated_w = Panic).
  { intros b V N. split; [exact V|]. intros order dict_order Ho Hd.
    apply (python_aborts order Ho parse_w dict_order Hd).
    - apply parse_w_no_panic.
    - apply unique_iff. reflexivity.
    - constructor; [intros []|constructor].
    - apply unique_iff. reflexivity.
    - split; [intros n; cbn; tauto|]. split; [intros n; cbn; tauto|].
      split; [now repeat constructor|now left]. }
  constructor; [|constructor; [|constructor; [|constructor]]]; apply G;
    cbn [valid_in_python not_an_f32]; unfold too_small, too_large.
  - split; [reflexivity|lra].
  - now left.
  - split; [reflexivity|lra].
  - right. lra.
  - split; [reflexivity|lra].
  - exact L2.
Qed.

(** An error bound of 0.1. *)
Definition larger (b : f64) (m : outcome metadata) : bool :=
  match m with
  | Ok m => match error_bounds m with
            | [_; _; Absolute e; _] => is_finite 24 128 e && f64_lt b (f64_of_f32 e)
            | _ => false
            end
  | _ => false
  end.
Lemma larger_case : exists m e,
  python_create same_order parse_w reversed "table" columns_w
    [("wind", AbsoluteErrorBound f64_tenth)] generated_w = Ok m
  /\ nth_error (schema m) 2 = Some ("wind", Float32)
  /\ nth_error (error_bounds m) 2 = Some (Absolute e) /\ R64 f64_tenth < R32 e.
Proof.
  set (r := python_create same_order parse_w reversed "table" columns_w
              [("wind", AbsoluteErrorBound f64_tenth)] generated_w).
  assert (L : larger f64_tenth r = true) by (vm_compute; reflexivity).
  assert (S : match r with Ok m => nth_error (schema m) 2 | _ => None end = Some ("wind", Float32))
    by (vm_compute; reflexivity).
  unfold larger in L. destruct r as [m| |]; try discriminate. exists m.
  destruct (error_bounds m) as [|b0 [|b1 [|[e|e|] [|b3 [|]]]]]; try discriminate.
  exists e. split; [reflexivity|]. split; [exact S|]. split; [reflexivity|].
  apply andb_prop in L. destruct L as (F & L). destruct (f64_of_f32_finite e F) as (F' & E).
  apply f64_lt_iff in L; [|reflexivity|exact F']. now rewrite E in L.
Qed.
