(** Aggregates of the segments of a table and the data points received for it. *)
From Coq Require Import ZArith Reals Bool String List Permutation Sorted Lia Lra.
From Verif Require Import Model.Base Model.Float Model.ErrorBound Model.Segments Model.Timestamps Model.Aggregates
  Model.Filters Model.Streams Model.Table Model.Scan Model.DataSource Model.EndToEnd
  Spec.PlatformSpec Spec.ErrorBoundSpec Spec.PmcSpec Spec.SwingSpec Spec.MacaqueVSpec Spec.TimestampsSpec Spec.FiltersSpec
  Spec.SegmentsSpec Spec.GridSpec Spec.StreamsSpec Spec.TableSpec Spec.ScanSpec Spec.EndToEndSpec
  Spec.AggregateSpec Spec.LineSpec Spec.StoredAggregatesSpec
  Proofs.MacaqueVProofs Proofs.RestoreNearProofs Proofs.SegmentsProofs Proofs.RestoreProofs Proofs.AggregateProofs Proofs.AggregateSumProofs
  Proofs.AggregateRuleProofs
  Proofs.EndToEndLists Proofs.EndToEndProofs Proofs.EndToEndPipeline Proofs.EndToEndResults.
From Verif Require Model.Pipeline Spec.PipelineSpec Proofs.LineSegmentProofs Proofs.PipelineCapacity
  Proofs.PipelineRuns Proofs.PipelineCrash Proofs.PipelineSorted.
Import ListNotations.
Open Scope nat_scope.
Open Scope list_scope.

Lemma created_lengths P s : good_log2 P -> ties_first P -> created P s ->
  exists ts out, grid P s = Ok (ts, out) /\ length ts = length out.
Proof.
  intros HP HT Hc. destruct (created_part P s Hc) as (eb & pts & Hp).
  destruct Hp as (He & Hrel & Hre & Hnan & Hv & Hspan & Hb).
  destruct (built_restores P eb s pts HP HT He Hrel Hre Hnan Hv Hspan Hb) as (out & E & L & _).
  exists (map fst pts), out. split; [exact E|]. rewrite map_length. symmetry. exact L.
Qed.

Lemma near_width eb extra v w : valid_error_bound eb -> (0 <= extra)%R -> finite32 v -> near eb extra v w ->
  finite32 w /\ (Rabs (R32 v - R32 w) <= width eb extra v)%R.
Proof.
  intros Hv He Hf Hn.
  assert (Hc : (0 < check_slack)%R) by (unfold check_slack; lra).
  assert (Hw : (0 <= width eb extra v - extra)%R).
  { unfold width. destruct eb as [e|e|]; cbn [valid_error_bound] in Hv; [|pose proof (Rabs_pos (R32 v))|lra].
    - assert (0 <= (1 + check_slack) * R32 e)%R by (apply Rmult_le_pos; lra). lra.
    - assert (0 <= (1 + check_slack) * (R32 e / 100) * Rabs (R32 v))%R.
      { apply Rmult_le_pos; [|assumption]. apply Rmult_le_pos; lra. } lra. }
  destruct Hn as [[Hs|(_ & Hg & Hb)]|(_ & Hg & Hb)].
  - destruct Hs as [(_ & Hg & E)|[(E & Hi)|(Hn & _)]].
    + split; [exact Hg|]. rewrite E. unfold Rminus. rewrite Rplus_opp_r, Rabs_R0. lra.
    + subst w. split; [exact Hf|]. unfold Rminus. rewrite Rplus_opp_r, Rabs_R0. lra.
    + exfalso. clear - Hf Hn. destruct v; cbn in *; discriminate.
  - split; [exact Hg|]. unfold width. destruct eb as [e|e|]; [lra|lra|contradiction].
  - split; [exact Hg|]. unfold width in *. destruct eb as [e|e|]; cbn [exact_deviation valid_error_bound] in *.
    + assert (0 < check_slack * R32 e)%R by (apply Rmult_lt_0_compat; tauto). lra.
    + rewrite Rabs_mult, (Rabs_pos_eq (R32 e / (1001 / 10))) in Hb by lra.
      set (V := Rabs (R32 v)) in *. assert (HV : (0 <= V)%R) by apply Rabs_pos.
      assert (0 <= check_slack * (R32 e / 100) * V)%R.
      { apply Rmult_le_pos; [|assumption]. apply Rmult_le_pos; lra. }
      assert (0 <= R32 e / 100100 * V)%R by (apply Rmult_le_pos; lra).
      replace ((1 + check_slack) * (R32 e / 100) * V)%R
        with (V * (R32 e / (1001 / 10)) + R32 e / 100100 * V + check_slack * (R32 e / 100) * V)%R
        by field. lra.
    + lra.
Qed.

Lemma abs_both x w : (Rabs x <= w -> - w <= x <= w)%R.
Proof. unfold Rabs. destruct (Rcase_abs x); lra. Qed.

Lemma forall2_and {A B} (R S : A -> B -> Prop) l k : Forall2 R l k -> Forall2 S l k -> Forall2 (fun a b => R a b /\ S a b) l k.
Proof. intros H. induction H; intros K; inversion K; subst; constructor; auto. Qed.

Lemma forall2_len {A B} (R : A -> B -> Prop) l k : Forall2 R l k -> length l = length k.
Proof. induction 1; cbn [length]; congruence. Qed.

Lemma forall2_map_l {A B C} (f : A -> B) (R : B -> C -> Prop) l k : Forall2 R (map f l) k <-> Forall2 (fun a c => R (f a) c) l k.
Proof.
  split.
  - revert k. induction l as [|a l IH]; intros k H; cbn [map] in H; inversion H; subst; constructor; auto.
  - intros H. induction H; cbn [map]; constructor; auto.
Qed.

(** Sums of values that differ by at most [w]. *)
Lemma totals eb extra vs : forall out, Forall2 (fun v w => finite32 w /\ (Rabs (R32 v - R32 w) <= width eb extra v)%R) vs out ->
  (Rabs (total vs - total out) <= widths eb extra vs)%R /\ (magnitude out <= magnitude vs + widths eb extra vs)%R.
Proof.
  intros out H. induction H as [|v w vs out [_ Hw] H [IH1 IH2]].
  - unfold total, magnitude, widths. cbn [fold_right]. rewrite Rminus_0_r, Rabs_R0. lra.
  - unfold total, magnitude, widths in *. cbn [fold_right].
    set (a := fold_right (fun (v : f32) (s : R) => (R32 v + s)%R) 0%R vs) in *.
    set (b := fold_right (fun (v : f32) (s : R) => (R32 v + s)%R) 0%R out) in *. split.
    + replace (R32 v + a - (R32 w + b))%R with ((R32 v - R32 w) + (a - b))%R by ring.
      pose proof (Rabs_triang (R32 v - R32 w) (a - b)). lra.
    + assert (Rabs (R32 w) <= Rabs (R32 v) + Rabs (R32 v - R32 w))%R.
      { pose proof (Rabs_triang (R32 v) (R32 w - R32 v)) as T. replace (R32 v + (R32 w - R32 v))%R with (R32 w) in T by ring.
        rewrite (Rabs_minus_sym (R32 v)). exact T. }
      lra.
Qed.

Lemma sums_perm (f : f32 -> R) l k : Permutation l k ->
  fold_right (fun v s => f v + s)%R 0%R l = fold_right (fun v s => f v + s)%R 0%R k.
Proof. induction 1; cbn [fold_right]; lra. Qed.

Section Stored.
  Variables (P : platform) (m : metadata) (size : R) (latest interval : Z) (l : list item) (gs : list Pipeline.segments).
  Variables (position column : nat) (name : string) (eb : error_bound) (files : list (file stored_segment))
    (read : list stored_segment).
  Hypothesis Hstore : can_store P m size latest interval l.
  Hypothesis Hvalid : valid_table m.
  Hypothesis Hgood : Forall (good_buffer l) gs.
  Hypothesis Hperm : Permutation (flat_map segment_items gs) l.
  Hypothesis Hfield : field_at m position column name eb.
  Hypothesis Hhold : forall k, all_segments P m position column gs = Ok k -> hold files k.
  Hypothesis Hread : Permutation read (flat_map segments_in files).

  Notation extra := (rounding size latest interval (length l)).

  Lemma bound_valid : valid_error_bound eb.
  Proof.
    pose proof (valid_bounds _ Hvalid) as Hb. rewrite Forall_forall in Hb. apply Hb.
    apply (nth_error_In _ column). exact (field_bound _ _ _ _ _ Hfield).
  Qed.

  Lemma buffer_created g xs : good_buffer l g -> compress_field P m position column g = Ok xs ->
    Forall (fun x => created P (st_segment x)) xs.
  Proof.
    intros Hg E. pose proof (buffer_sorted P m size latest interval l Hstore g Hg) as Hs.
    pose proof (buffer_length l g Hg) as Hlen. destruct Hg as [_ Hi _].
    unfold compress_field in E. rewrite (field_bound _ _ _ _ _ Hfield) in E.
    rewrite <- times_of_items, <- values_of_items in E.
    destruct (segment_items g) as [|i0 is] eqn:Eg.
    { cbn in E. injection E as <-. constructor. }
    rewrite <- Eg in *. set (items := segment_items g) in *.
    assert (Hne : items <> []) by (rewrite Eg; discriminate).
    assert (Hlen' : length items <= length l).
    { unfold items. rewrite <- (map_length time_of), times_of_items, map_length. exact Hlen. }
    clearbody items. clear Eg i0 is Hlen.
    destruct (compress_univariate P eb (map time_of items) (map (value_of position) items)) as [segs| |] eqn:Ec; try discriminate E.
    injection E as <-.
    destruct Hstore as [H1 H2 H3 H4 H5 H6 H7 H8 H9 H10].
    assert (Hin : forall t, In t (map time_of items) -> (Z.abs t <= latest)%Z).
    { intros t Ht. apply in_map_iff in Ht. destruct Ht as [x [<- Hx]]. apply H7, Hi, Hx. }
    assert (Hn : (INR (length items) <= INR (length l))%R) by (apply le_INR; exact Hlen').
    assert (Hlat : (0 <= latest)%Z).
    { destruct items as [|x k]; [contradiction Hne; reflexivity|]. specialize (Hin (time_of x) (or_introl eq_refl)). lia. }
    assert (Hq : (0 <= IZR latest / IZR interval)%R).
    { apply Rmult_le_pos; [apply IZR_le; exact Hlat|]. apply Rlt_le, Rinv_0_lt_compat. apply IZR_lt. lia. }
    apply Forall_forall. intros x Hx. apply in_map_iff in Hx. destruct Hx as [sg [<- Hx]]. cbn [st_segment].
    exists eb, (map time_of items), (map (value_of position) items), segs.
    split; [exact bound_valid|]. split; [|split; [|split; [|split; [|split; [|split; [|split; [exact Ec|exact Hx]]]]]]].
    - intros e Ee. subst eb. destruct (H9 position column name e Hfield) as [H|[H|H]]; [left; exact H|right; left|right; right];
        intros v Hv Hfin; apply H; try assumption; apply in_map_iff in Hv; destruct Hv as [x [<- Hv]]; apply in_map, Hi, Hv.
    - apply Forall_forall. intros v Hv. apply in_map_iff in Hv. destruct Hv as [y [<- Hy]].
      apply (H10 position column name eb y Hfield (Hi y Hy)).
    - apply Forall_forall. intros v Hv. apply in_map_iff in Hv. destruct Hv as [y [<- Hy]].
      apply (H10 position column name eb y Hfield (Hi y Hy)).
    - split; [|split; [|split]].
      + destruct items; [contradiction Hne; reflexivity|discriminate].
      + apply Forall_forall. intros t Ht. specialize (Hin t Ht). unfold is_i64. lia.
      + unfold strictly_increasing. clear - Hs H3. induction Hs as [|x k Hs IH F]; [constructor|]. cbn [map].
        constructor; [exact IH|]. rewrite Forall_forall in *. intros t Ht. apply in_map_iff in Ht.
        destruct Ht as [y [<- Hy]]. specialize (F y Hy). lia.
      + rewrite map_length.
        assert (Hr : (IZR (Z.of_nat (length items)) <= IZR (2 ^ 44))%R).
        { rewrite <- INR_IZR_INZ. replace (IZR (2 ^ 44)) with (2 ^ 44)%R by (rewrite (pow_IZR 2 44); reflexivity). lra. }
        apply le_IZR in Hr. lia.
    - intros t t' Ht Ht'. pose proof (Hin t Ht). pose proof (Hin t' Ht'). unfold is_i64. lia.
    - rewrite !map_length. reflexivity.
  Qed.

  Lemma all_created : forall hs xs, Forall (good_buffer l) hs -> all_segments P m position column hs = Ok xs ->
    Forall (fun x => created P (st_segment x)) xs.
  Proof.
    induction hs as [|g hs IH]; intros xs Hh E; cbn [all_segments] in E; [injection E as <-; constructor|].
    destruct (compress_field P m position column g) as [ys| |] eqn:Ec; try discriminate E. cbn [bind] in E.
    destruct (all_segments P m position column hs) as [zs| |] eqn:Ea; try discriminate E. injection E as <-.
    inversion Hh; subst. apply Forall_app. split; [|apply IH; [assumption|reflexivity]].
    apply (buffer_created g); assumption.
  Qed.

  (** What is read: the segments, what they restore and the data points they are for. *)
  Lemma read_parts : exists parts outs,
    Forall (fun x => created P (st_segment x)) read
    /\ Permutation (concat parts) l
    /\ Forall2 (fun s out => exists ts, grid P s = Ok (ts, out)) (map st_segment read) outs
    /\ Forall2 (fun (part : list item) out => length out = length part) parts outs
    /\ (forall e, Forall (fun x => lines_within size latest e (st_segment x)) read ->
        Forall2 (near eb extra) (map (value_of position) (concat parts)) (concat outs)).
  Proof.
    destruct (all_stored P m size latest interval l Hstore Hvalid position column name eb Hfield gs Hgood) as (xs & parts & E1 & E2 & E3).
    destruct (Hhold xs E1) as (ordered & Ho1 & Ho2).
    pose proof (all_created gs xs Hgood E1) as Hc.
    assert (Hp : Permutation xs read).
    { rewrite Hread, <- Ho2. apply Permutation_flat_map. exact (Permutation_sym Ho1). }
    destruct (forall2_perm _ _ _ Hp _ E3) as (parts' & Hp' & F).
    assert (Hc' : Forall (fun x => created P (st_segment x)) read).
    { rewrite Forall_forall in *. intros x Hx. apply Hc. apply (Permutation_in x (Permutation_sym Hp) Hx). }
    assert (Hconcat : Permutation (concat parts') l).
    { rewrite <- (concat_perm _ _ Hp'), E2. exact Hperm. }
    exists parts'.
    assert (Hmain : exists outs,
      Forall2 (fun s out => exists ts, grid P s = Ok (ts, out)) (map st_segment read) outs
      /\ Forall2 (fun (part : list item) out => length out = length part) parts' outs
      /\ (forall e, Forall (fun x => lines_within size latest e (st_segment x)) read ->
          Forall2 (near eb extra) (map (value_of position) (concat parts')) (concat outs))).
    { clear Hp Hp' Hconcat Hc Hread Hhold E1 E2 E3 Ho1 Ho2.
      induction F as [|x part read' parts'' Hx F IH].
      { exists []. split; [constructor|]. split; [constructor|]. intros e _. constructor. }
      inversion Hc' as [|? ? Hx' Hc'']; subst. destruct (IH Hc'') as (outs & I1 & I2 & I3).
      destruct (created_lengths P (st_segment x) (log2_fine _ _ _ _ _ _ Hstore) (ties_fine _ _ _ _ _ _ Hstore) Hx') as (ts & out & G & L).
      destruct Hx as [_ _ _ Hpts]. unfold grid_stored in Hpts. rewrite G in Hpts.
      assert (Hlen : length out = length part).
      { pose proof (forall2_len _ _ _ Hpts) as Hl. rewrite map_length, combine_length, L, Nat.min_id in Hl. exact Hl. }
      exists (out :: outs). split; [cbn [map]; constructor; [exists ts; exact G|exact I1]|].
      split; [constructor; [exact Hlen|exact I2]|].
      intros e Hl. inversion Hl as [|? ? Hl1 Hl2]; subst. cbn [concat]. rewrite map_app.
      apply Forall2_app; [|exact (I3 e Hl2)].
      assert (Hno : forall t, ~ exception P x t).
      { intros t (Hid & ts' & vs' & G' & Hin). destruct (Hl1 Hid) as [(Hr & _) _]. unfold model_values in Hin.
        rewrite Hr in Hin. cbn [residuals_length] in Hin. rewrite Nat.sub_0_r, skipn_all in Hin. contradiction Hin. }
      clear - Hpts L Hno. revert out part L Hpts. induction ts as [|t ts IH]; intros out part L H.
      - destruct out; [|discriminate L]. cbn in H. inversion H; subst. constructor.
      - destruct out as [|v out]; [discriminate L|]. cbn [combine map] in H. inversion H as [|? i ? part' Hi Hr]; subst.
        cbn [map]. constructor; [|apply IH; [injection L as L; exact L|exact Hr]].
        destruct Hi as (_ & _ & [Hi|Hi]); [|contradiction (Hno _ Hi)].
        cbn [p_value] in Hi. rewrite from_to_bits in Hi. exact Hi. }
    destruct Hmain as (outs & M1 & M2 & M3). exists outs. auto.
  Qed.

  Lemma lengths_concat (parts : list (list item)) (outs : list (list f32)) :
    Forall2 (fun part out => length out = length part) parts outs -> length (concat outs) = length (concat parts).
  Proof. induction 1 as [|p o ps os H F IH]; [reflexivity|]. cbn [concat]. rewrite !app_length, H, IH. reflexivity. Qed.

  Lemma segments_created : Forall (fun x => created P (st_segment x)) read -> Forall (created P) (map st_segment read).
  Proof. intros H. rewrite Forall_forall in *. intros x Hx. apply in_map_iff in Hx. destruct Hx as [y [<- Hy]]. exact (H y Hy). Qed.

  Lemma count_stored : (Z.of_nat (length l) < 2 ^ 63)%Z ->
    model_count 0 (map st_segment read) = Ok (Z.of_nat (length l)).
  Proof.
    intros Hl. destruct read_parts as (parts & outs & R1 & R2 & R3 & R4 & _).
    destruct (count_correct P (map st_segment read) (log2_fine _ _ _ _ _ _ Hstore) (ties_fine _ _ _ _ _ _ Hstore) (segments_created R1))
      as (restored & D & C).
    assert (restored = concat outs).
    { apply (decompressed_unique P (map st_segment read)); [exact D|]. exists outs. split; [exact R3|reflexivity]. }
    subst restored. rewrite (lengths_concat _ _ R4), (Permutation_length R2) in C.
    rewrite (C 0%Z); [reflexivity|lia|exact Hl].
  Qed.

  Lemma extra_positive : l <> [] -> (0 < extra)%R.
  Proof.
    intros Hl. destruct l as [|x k]; [contradiction Hl; reflexivity|].
    apply rounding_positive.
    - apply (size_small _ _ _ _ _ _ Hstore).
    - pose proof (times_small _ _ _ _ _ _ Hstore x (or_introl eq_refl)). lia.
    - exact (interval_positive _ _ _ _ _ _ Hstore).
  Qed.

  Lemma restored_near e : l <> [] -> Forall (fun x => lines_within size latest e (st_segment x)) read ->
    Forall (fun x => finite32 (value_of position x)) l -> exists values out,
    Permutation values (map (value_of position) l) /\ decompressed P (map st_segment read) out
    /\ Forall finite32 out /\ length out = length l
    /\ Forall2 (fun v w => finite32 w /\ (Rabs (R32 v - R32 w) <= width eb extra v)%R) values out.
  Proof.
    intros Hl Hlines Hfin. destruct read_parts as (parts & outs & R1 & R2 & R3 & R4 & R5).
    exists (map (value_of position) (concat parts)), (concat outs).
    assert (F : Forall2 (fun v w => finite32 w /\ (Rabs (R32 v - R32 w) <= width eb extra v)%R)
                  (map (value_of position) (concat parts)) (concat outs)).
    { specialize (R5 e Hlines). apply (proj1 (forall2_map_l _ _ _ _)) in R5. apply (proj2 (forall2_map_l _ _ _ _)).
      assert (Hin : forall i, In i (concat parts) -> finite32 (value_of position i)).
      { intros i Hi. rewrite Forall_forall in Hfin. apply Hfin. apply (Permutation_in i R2 Hi). }
      pose proof (extra_positive Hl) as He. clear - R5 Hin He Hvalid Hfield.
      revert R5 Hin. generalize (concat parts) (concat outs). intros is0 ws0 R5 Hin. induction R5 as [|i w is ws Hi F IH]; [constructor|]. constructor.
      - apply near_width; [apply bound_valid|lra|apply Hin; left; reflexivity|exact Hi].
      - apply IH. intros j Hj. apply Hin. right. exact Hj. }
    split; [apply Permutation_map; exact R2|]. split; [exists outs; split; [exact R3|reflexivity]|]. split; [|split; [|exact F]].
    - clear - F. induction F as [|v w vs ws [Hw _] F IH]; constructor; assumption.
    - rewrite (lengths_concat _ _ R4). exact (Permutation_length R2).
  Qed.

  Lemma created_lines e : Forall (fun x => lines_within size latest e (st_segment x)) read ->
    Forall (fun s => created P s /\ lines_within size latest e s) (map st_segment read).
  Proof.
    intros Hlines. destruct read_parts as (_ & _ & R1 & _). rewrite Forall_forall in *. intros x Hx.
    apply in_map_iff in Hx. destruct Hx as [y [<- Hy]]. split; [exact (R1 y Hy)|exact (Hlines y Hy)].
  Qed.

  Lemma forall2_in {A B} (R : A -> B -> Prop) xs ys : Forall2 R xs ys ->
    (forall x, In x xs -> exists y, In y ys /\ R x y) /\ (forall y, In y ys -> exists x, In x xs /\ R x y).
  Proof.
    induction 1 as [|x y xs ys H F [I1 I2]]; [split; intros ? []|]. split.
    - intros z [<-|Hz]; [exists y; split; [left; reflexivity|exact H]|].
      destruct (I1 z Hz) as (w & W1 & W2). exists w. split; [right; exact W1|exact W2].
    - intros z [<-|Hz]; [exists x; split; [left; reflexivity|exact H]|].
      destruct (I2 z Hz) as (w & W1 & W2). exists w. split; [right; exact W1|exact W2].
  Qed.

  Lemma min_max_stored e : l <> [] -> (0 <= e)%R -> (size <= 2 ^ 96)%R ->
    Forall (fun x => lines_within size latest e (st_segment x)) read ->
    Forall (fun x => finite32 (value_of position x)) l ->
    about_least eb extra e (model_min P (map st_segment read)) (map (value_of position) l)
    /\ about_greatest eb extra e (model_max P (map st_segment read)) (map (value_of position) l).
  Proof.
    intros Hl He Hsize Hlines Hfin.
    destruct (restored_near e Hl Hlines Hfin) as (values & out & V1 & V2 & V3 & V4 & V5).
    assert (Hne : map st_segment read <> []).
    { intros E. destruct V2 as (ps & F & C). rewrite E in F. inversion F; subst. cbn in V4.
      apply Hl. apply length_zero_iff_nil. symmetry. exact V4. }
    destruct (LineSegmentProofs.near_min_max P (map st_segment read) size latest e (log2_fine _ _ _ _ _ _ Hstore)
      (ties_fine _ _ _ _ _ _ Hstore) (latest_small _ _ _ _ _ _ Hstore) Hsize He Hne (created_lines e Hlines)) as (restored & D & C).
    assert (restored = out) by (apply (decompressed_unique P (map st_segment read)); assumption). subst restored.
    destruct (C V3) as ((M1 & (x & X1 & X2) & M2) & (G1 & (y & Y1 & Y2) & G2)).
    destruct (forall2_in _ _ _ V5) as [I1 I2].
    assert (Hv : forall v, In v (map (value_of position) l) <-> In v values).
    { intros v. split; apply Permutation_in; [apply Permutation_sym|]; exact V1. }
    split; split; try assumption; split.
    - destruct (I2 x X1) as (v & W1 & _ & W2). exists v. split; [apply Hv; exact W1|].
      replace (R32 v - R32 (model_min P (map st_segment read)))%R
        with ((R32 v - R32 x) + (R32 x - R32 (model_min P (map st_segment read))))%R by ring.
      eapply Rle_trans; [apply Rabs_triang|]. lra.
    - intros v Hin. apply Hv in Hin. destruct (I1 v Hin) as (w & W1 & _ & W2). specialize (M2 w W1).
      apply abs_both in W2. lra.
    - destruct (I2 y Y1) as (v & W1 & _ & W2). exists v. split; [apply Hv; exact W1|].
      replace (R32 v - R32 (model_max P (map st_segment read)))%R
        with ((R32 v - R32 y) + (R32 y - R32 (model_max P (map st_segment read))))%R by ring.
      eapply Rle_trans; [apply Rabs_triang|]. lra.
    - intros v Hin. apply Hv in Hin. destruct (I1 v Hin) as (w & W1 & _ & W2). specialize (G2 w W1).
      apply abs_both in W2. lra.
  Qed.

  Lemma all_from : forall hs xs, Forall (good_buffer l) hs -> all_segments P m position column hs = Ok xs ->
    forall x, In x xs -> exists g part, In g hs /\ length part <= length (Pipeline.g_points g)
      /\ stored_as P size latest interval l position eb x part.
  Proof.
    induction hs as [|g hs IH]; intros xs Hh E; cbn [all_segments] in E; [injection E as <-; intros x []|].
    inversion Hh as [|? ? Hg Hh']; subst.
    destruct (buffer_stored P m size latest interval l Hstore Hvalid g position column name eb Hg Hfield) as (ys & parts & E1 & E2 & E3).
    rewrite E1 in E. cbn [bind] in E.
    destruct (all_segments P m position column hs) as [zs| |] eqn:Ea; try discriminate E. injection E as <-.
    intros x Hx. apply in_app_iff in Hx. destruct Hx as [Hx|Hx].
    - destruct (forall2_in _ _ _ E3) as [I1 _]. destruct (I1 x Hx) as (part & Hp & Hs).
      exists g, part. split; [left; reflexivity|]. split; [|exact Hs].
      assert (Hl : length (Pipeline.g_points g) = length (segment_items g)).
      { rewrite <- (map_length Pipeline.p_time), <- times_of_items, map_length. reflexivity. }
      rewrite Hl, <- E2. apply in_split in Hp. destruct Hp as (a & b & ->). rewrite concat_app, app_length. cbn [concat].
      rewrite app_length. lia.
    - destruct (IH zs Hh' eq_refl x Hx) as (h & part & H1 & H2). exists h, part. split; [right; exact H1|exact H2].
  Qed.

  Lemma all_short : (forall g, In g gs -> (Z.of_nat (length (Pipeline.g_points g)) <= 2 ^ 24)%Z) ->
    Forall (short P) (map st_segment read).
  Proof.
    intros Hgs. destruct read_parts as (_ & _ & R1 & _).
    destruct (all_stored P m size latest interval l Hstore Hvalid position column name eb Hfield gs Hgood) as (xs & _ & E1 & _).
    destruct (Hhold xs E1) as (ordered & Ho1 & Ho2).
    apply Forall_forall. intros s Hs. apply in_map_iff in Hs. destruct Hs as [x [<- Hx]].
    assert (Hin : In x xs).
    { rewrite <- Ho2. apply (Permutation_in x (Permutation_flat_map segments_in Ho1)). apply (Permutation_in x Hread Hx). }
    destruct (all_from gs xs Hgood E1 x Hin) as (g & part & Hg & Hlen & Hst).
    intros ts out G. rewrite Forall_forall in R1.
    destruct (created_lengths P (st_segment x) (log2_fine _ _ _ _ _ _ Hstore) (ties_fine _ _ _ _ _ _ Hstore) (R1 x Hx)) as (ts' & out' & G' & L).
    rewrite G in G'. injection G' as <- <-.
    destruct Hst as [_ _ _ Hpts]. unfold grid_stored in Hpts. rewrite G in Hpts.
    pose proof (forall2_len _ _ _ Hpts) as Hl. rewrite map_length, combine_length, L, Nat.min_id in Hl.
    specialize (Hgs g Hg). lia.
  Qed.

  Lemma sum_avg_stored e : (0 <= e)%R -> (size <= 2 ^ 96)%R ->
    (forall g, In g gs -> (Z.of_nat (length (Pipeline.g_points g)) <= 2 ^ 24)%Z) ->
    Forall (fun x => lines_within size latest e (st_segment x)) read ->
    Forall (fun x => finite32 (value_of position x)) l -> (Z.of_nat (length l) < 2 ^ 64)%Z ->
    let values := map (value_of position) l in
    let factor := ((1 + unit32) ^ (length l + length read))%R in
    let lines := (INR (length l) * (2 * e))%R in
    let most := (magnitude values + widths eb extra values + lines)%R in
    (factor * most <= IZR (2 ^ 127))%R ->
    exists sum, model_sum P f64_zero (map st_segment read) = Ok sum
      /\ model_avg P 0 f64_zero (map st_segment read) = Ok (Z.of_nat (length l), sum)
      /\ finite64 sum
      /\ (Rabs (R64 sum - total values) <= widths eb extra values + lines + (factor - 1) * most)%R.
  Proof.
    intros He Hsize Hgs Hlines Hfin Hlen values factor lines most Hmost.
    destruct (LineSegmentProofs.near_sum_avg P (map st_segment read) size latest e (log2_fine _ _ _ _ _ _ Hstore)
      (ties_fine _ _ _ _ _ _ Hstore) (latest_small _ _ _ _ _ _ Hstore) Hsize He (created_lines e Hlines) (all_short Hgs)) as (restored & D & C).
    assert (Hr : Forall finite32 restored /\ length restored = length l
      /\ (Rabs (total values - total restored) <= widths eb extra values)%R
      /\ (magnitude restored <= magnitude values + widths eb extra values)%R).
    { assert (Hd : l = [] \/ l <> []) by (destruct l; [left; reflexivity|right; discriminate]). destruct Hd as [El|Hl].
      - destruct read_parts as (parts & outs & R1 & R2 & R3 & R4 & _).
        assert (restored = concat outs).
        { apply (decompressed_unique P (map st_segment read)); [exact D|]. exists outs. split; [exact R3|reflexivity]. }
        subst restored. pose proof (lengths_concat _ _ R4) as Hn. rewrite (Permutation_length R2), El in Hn.
        apply length_zero_iff_nil in Hn. rewrite Hn. unfold values. rewrite El. cbn [map]. 
        split; [constructor|]. split; [reflexivity|]. unfold total, magnitude, widths. cbn [fold_right].
        rewrite Rminus_0_r, Rabs_R0. lra.
      - destruct (restored_near e Hl Hlines Hfin) as (vs & out & V1 & V2 & V3 & V4 & V5).
        assert (restored = out) by (apply (decompressed_unique P (map st_segment read)); assumption). subst restored.
        split; [exact V3|]. split; [exact V4|]. destruct (totals _ _ _ _ V5) as [T1 T2].
        unfold values, total, magnitude, widths in *.
        rewrite (sums_perm R32 _ _ V1), (sums_perm (width eb extra) _ _ V1) in T1.
        rewrite (sums_perm (fun v => Rabs (R32 v)) _ _ V1), (sums_perm (width eb extra) _ _ V1) in T2.
        split; [exact T1|exact T2]. }
    destruct Hr as (H1 & H2 & H3 & H4). rewrite H2, map_length in C.
    assert (Hfactor : (1 <= factor)%R).
    { unfold factor. apply pow_R1_Rle. unfold unit32. lra. }
    destruct (C H1 Hlen) as (sum & S1 & S2 & S3 & S4).
    { fold factor. fold lines. eapply Rle_trans; [|exact Hmost]. apply Rmult_le_compat_l; [lra|]. unfold most. lra. }
    exists sum. split; [exact S1|]. split; [exact S2|]. split; [exact S3|].
    fold factor in S4. fold lines in S4.
    assert ((factor - 1) * (magnitude restored + lines) <= (factor - 1) * most)%R.
    { apply Rmult_le_compat_l; [lra|]. unfold most. lra. }
    replace (R64 sum - total values)%R with ((R64 sum - total restored) + (total restored - total values))%R by ring.
    eapply Rle_trans; [apply Rabs_triang|]. rewrite (Rabs_minus_sym (total restored)). lra.
  Qed.
End Stored.

(** ** After a flush *)
Section Flushed.
  Variables (hash : string -> Z) (capacity : nat) (sort_points : list Pipeline.point -> list Pipeline.point)
    (logging : bool) (events : list Pipeline.event) (limits : Pipeline.pool) (s1 s : Pipeline.state)
    (P : platform) (m : metadata) (size : R) (latest interval : Z)
    (position column : nat) (name : string) (eb : error_bound) (files : list (file stored_segment))
    (read : list stored_segment).
  Notation sent := (sent_to (table_name m) s).
  Notation gs := (committed_to (table_name m) s).
  Notation extra := (rounding size latest interval (length sent)).

  Hypothesis Hpoints : PipelineSpec.sorts_points sort_points.
  Hypothesis Hlimits : PipelineSpec.nonneg_limits limits.
  Hypothesis Hrun : Pipeline.run hash capacity sort_points logging events (Pipeline.start logging limits [] []) = Pipeline.Next s1.
  Hypothesis Husual : PipelineSpec.along hash capacity sort_points logging PipelineSpec.usual events (Pipeline.start logging limits [] []).
  Hypothesis Hcrash : ~ In Pipeline.Crash events.
  Hypothesis Hcollision : PipelineSpec.collision_free hash (PipelineSpec.received s1).
  Hypothesis Htimes : PipelineSpec.distinct_times (PipelineSpec.received s1).
  Hypothesis Hreturn : Pipeline.step hash capacity sort_points logging Pipeline.Return s1 = Pipeline.Next s.
  Hypothesis Hvalid : valid_table m.
  Hypothesis Hstore : can_store P m size latest interval sent.
  Hypothesis Hfield : field_at m position column name eb.
  Hypothesis Hhold : forall l, all_segments P m position column gs = Ok l -> hold files l.
  Hypothesis Hread : Permutation read (flat_map segments_in files).

  Lemma flushed_good : Forall (good_buffer sent) gs /\ Permutation (flat_map segment_items gs) sent.
  Proof.
    destruct (flushed hash capacity sort_points logging Hpoints events limits s1 s (table_name m) Hlimits Hrun Husual Hcrash Hcollision Htimes Hreturn)
      as (Hperm & Erec & Hord).
    split; [|exact Hperm]. apply buffers_good; [exact Hperm| |exact Hord]. unfold sent_to. rewrite Erec. apply nodup_filter. exact Htimes.
  Qed.

  Lemma flushed_count : (Z.of_nat (length sent) < 2 ^ 63)%Z ->
    model_count 0 (map st_segment read) = Ok (Z.of_nat (length sent)).
  Proof.
    destruct flushed_good as [G1 G2].
    exact (count_stored P m size latest interval sent gs position column name eb files read Hstore Hvalid G1 G2 Hfield Hhold Hread).
  Qed.

  Lemma flushed_min_max e : sent <> [] -> (0 <= e)%R -> (size <= 2 ^ 96)%R ->
    Forall (fun x => lines_within size latest e (st_segment x)) read ->
    Forall (fun x => finite32 (value_of position x)) sent ->
    about_least eb extra e (model_min P (map st_segment read)) (map (value_of position) sent)
    /\ about_greatest eb extra e (model_max P (map st_segment read)) (map (value_of position) sent).
  Proof.
    destruct flushed_good as [G1 G2].
    exact (min_max_stored P m size latest interval sent gs position column name eb files read Hstore Hvalid G1 G2 Hfield Hhold Hread e).
  Qed.

  Lemma flushed_sum_avg e : (0 <= e)%R -> (size <= 2 ^ 96)%R -> 2 <= capacity -> (Z.of_nat capacity <= 2 ^ 24)%Z ->
    Forall (fun x => lines_within size latest e (st_segment x)) read ->
    Forall (fun x => finite32 (value_of position x)) sent -> (Z.of_nat (length sent) < 2 ^ 64)%Z ->
    let values := map (value_of position) sent in
    let factor := ((1 + unit32) ^ (length sent + length read))%R in
    let lines := (INR (length sent) * (2 * e))%R in
    let most := (magnitude values + widths eb extra values + lines)%R in
    (factor * most <= IZR (2 ^ 127))%R ->
    exists sum, model_sum P f64_zero (map st_segment read) = Ok sum
      /\ model_avg P 0 f64_zero (map st_segment read) = Ok (Z.of_nat (length sent), sum)
      /\ finite64 sum
      /\ (Rabs (R64 sum - total values) <= widths eb extra values + lines + (factor - 1) * most)%R.
  Proof.
    intros He Hsize Hc1 Hc2. destruct flushed_good as [G1 G2].
    apply (sum_avg_stored P m size latest interval sent gs position column name eb files read Hstore Hvalid G1 G2 Hfield Hhold Hread e He Hsize).
    intros g Hg.
    assert (Et : Pipeline.s_table s = Pipeline.s_table s1).
    { clear - Hreturn. cbn [Pipeline.step] in Hreturn.
      destruct (Pipeline.s_client s1); try discriminate Hreturn; destruct (Pipeline.s_results s1); try discriminate Hreturn.
      - injection Hreturn as <-. reflexivity.
      - destruct (Pipeline.is_finished s1); [|discriminate Hreturn]. injection Hreturn as <-. reflexivity. }
    unfold committed_to in Hg. apply in_flat_map in Hg. destruct Hg as [k [Hk Hg]].
    destruct (String.eqb (Pipeline.k_table k) (table_name m)); [|contradiction Hg]. rewrite Et in Hk.
    pose proof (PipelineCapacity.committed_small hash capacity sort_points logging Hpoints Hc1 events limits s1 Hrun k g Hk Hg). lia.
  Qed.
End Flushed.

(** ** At any time *)
Section Any_time.
  Variables (hash : string -> Z) (capacity : nat) (sort_points : list Pipeline.point -> list Pipeline.point)
    (logging : bool) (events : list Pipeline.event) (limits : Pipeline.pool) (s : Pipeline.state)
    (P : platform) (m : metadata) (size : R) (latest interval : Z)
    (position column : nat) (name : string) (eb : error_bound) (files : list (file stored_segment))
    (read : list stored_segment).
  Notation sent := (sent_to (table_name m) s).
  Notation stored := (saved_in (table_name m) s).
  Notation gs := (committed_to (table_name m) s).

  Hypothesis Hpoints : PipelineSpec.sorts_points sort_points.
  Hypothesis Hrun : Pipeline.run hash capacity sort_points logging events (Pipeline.start logging limits [] []) = Pipeline.Next s.
  Hypothesis Hgood : PipelineSpec.along hash capacity sort_points logging
    (fun e s => PipelineSpec.undisturbed e s /\ PipelineSpec.spills_written e) events (Pipeline.start logging limits [] []).
  Hypothesis Hcollision : PipelineSpec.collision_free hash (PipelineSpec.received s).
  Hypothesis Htimes : PipelineSpec.distinct_times (PipelineSpec.received s).
  Hypothesis Hvalid : valid_table m.
  Hypothesis Hstore : can_store P m size latest interval sent.
  Hypothesis Hfield : field_at m position column name eb.
  Hypothesis Hhold : forall l, all_segments P m position column gs = Ok l -> hold files l.
  Hypothesis Hread : Permutation read (flat_map segments_in files).

  Lemma count_any_time : (Z.of_nat (length sent) < 2 ^ 63)%Z ->
    model_count 0 (map st_segment read) = Ok (Z.of_nat (length stored))
    /\ exists rest, Permutation sent (stored ++ rest).
  Proof.
    intros Hl.
    destruct (stored_good hash capacity sort_points logging events limits s P m size latest interval
      Hpoints Hrun Hgood Hcollision Htimes Hstore) as (rest & Hall & Hlen & Hstore' & Hperm & Hgood').
    split; [|exists rest; exact Hall].
    apply (count_stored P m size latest interval stored gs position column name eb files read Hstore' Hvalid Hgood' Hperm Hfield Hhold Hread).
    lia.
  Qed.
End Any_time.
