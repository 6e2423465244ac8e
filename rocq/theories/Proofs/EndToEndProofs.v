(** The segments of the buffers of a table restore its data points. *)
From Coq Require Import ZArith Reals Bool String List Permutation Sorted Lia Lra.
From Verif Require Import Model.Base Model.Float Model.ErrorBound Model.MacaqueV Model.Segments Model.Timestamps
  Model.Filters Model.Streams Model.Table Model.Scan Model.DataSource Model.EndToEnd
  Spec.PlatformSpec Spec.ErrorBoundSpec Spec.PmcSpec Spec.SwingSpec Spec.MacaqueVSpec Spec.TimestampsSpec
  Spec.SegmentsSpec Spec.GridSpec Spec.StreamsSpec Spec.TableSpec Spec.ScanSpec Spec.EndToEndSpec
  Proofs.MacaqueVProofs Proofs.SegmentsProofs Proofs.RestoreNearProofs Proofs.EndToEndLists.
From Verif Require Model.Pipeline Spec.PipelineSpec Proofs.FiltersProofs.
Import ListNotations.
Open Scope nat_scope.
Open Scope list_scope.

Notation segment_items := PipelineSpec.segment_items.

Lemma grid_times P s ts vs : grid P s = Ok (ts, vs) ->
  decompress_all_timestamps (sg_start_time s) (sg_end_time s) (sg_timestamps s) = Ok ts.
Proof.
  unfold grid. destruct (decompress_all_timestamps _ _ _) as [ts'| |]; try discriminate.
  cbn [bind]. destruct (Nat.ltb _ _); [discriminate|].
  destruct (model_grid _ _ _) as [mv| |]; try discriminate. cbn [bind].
  destruct (sg_residuals s) as [|r rs]; [intros E; injection E as <- _; reflexivity|].
  destruct mv; [discriminate|]. destruct (macaque_v_grid _ _ _) as [rv| |]; try discriminate.
  cbn [bind]. intros E. injection E as <- _. reflexivity.
Qed.

Lemma times_of_items g : map time_of (segment_items g) = map Pipeline.p_time (Pipeline.g_points g).
Proof. unfold PipelineSpec.segment_items, PipelineSpec.items. rewrite map_map. reflexivity. Qed.
Lemma values_of_items position g : map (value_of position) (segment_items g)
  = map (fun p => from_bits (nth position (Pipeline.p_values p) 0%Z)) (Pipeline.g_points g).
Proof. unfold PipelineSpec.segment_items, PipelineSpec.items. rewrite map_map. reflexivity. Qed.
Lemma tags_of_items g x : In x (segment_items g) -> tags_of x = Pipeline.g_tags g.
Proof.
  unfold PipelineSpec.segment_items, PipelineSpec.items. intros H. apply in_map_iff in H.
  destruct H as [p [<- _]]. reflexivity.
Qed.
Lemma no_items g : segment_items g = [] -> Pipeline.g_points g = [].
Proof. unfold PipelineSpec.segment_items, PipelineSpec.items. destruct (Pipeline.g_points g); [reflexivity|discriminate]. Qed.

Lemma combine_maps {A B C} (f : A -> B) (h : A -> C) l : combine (map f l) (map h l) = map (fun x => (f x, h x)) l.
Proof. induction l as [|a l IH]; cbn [map combine]; [reflexivity|]. rewrite IH. reflexivity. Qed.

Lemma forall2_impl {A B} (R R' : A -> B -> Prop) l k : (forall a b, R a b -> R' a b) -> Forall2 R l k -> Forall2 R' l k.
Proof. intros H F. induction F; constructor; auto. Qed.

Lemma zip_points {A} (time : A -> Z) (value : A -> f32) (ok : f32 -> f32 -> Prop) l : forall out k,
  length out = length l -> Forall2 ok (map value (firstn k l)) (firstn k out) ->
  Forall2 (fun p x => fst p = time x /\ (ok (value x) (snd p) \/ In (time x) (skipn k (map time l))))
    (combine (map time l) out) l.
Proof.
  induction l as [|x l IH]; intros out k Hl H; [constructor|].
  destruct out as [|v out]; [discriminate Hl|]. cbn [map combine]. injection Hl as Hl.
  destruct k as [|k].
  - constructor; [split; [reflexivity|right; left; reflexivity]|].
    refine (forall2_impl _ _ _ _ _ (IH out 0 Hl ltac:(constructor))).
    intros p y [H1 [H2|H2]]; (split; [exact H1|]); [left; exact H2|right; right; exact H2].
  - cbn [firstn map] in H. inversion H as [|a b la lb Hv Hr]; subst.
    constructor; [split; [reflexivity|left; exact Hv]|]. exact (IH out k Hl Hr).
Qed.

Section Store.
  Variables (P : platform) (m : metadata) (size : R) (latest interval : Z) (l : list item).
  Hypothesis Hstore : can_store P m size latest interval l.
  Hypothesis Hvalid : valid_table m.

  Definition extra : R := rounding size latest interval (length l).

  Definition exception (x : stored_segment) (t : Z) : Prop :=
    sg_model_type_id (st_segment x) = swing_id
    /\ exists ts vs, grid P (st_segment x) = Ok (ts, vs) /\ In t (skipn (model_values (st_segment x) (length ts)) ts).

  Definition point_for (position : nat) (eb : error_bound) (x : stored_segment) (p : Streams.point) (i : item) : Prop :=
    p_time p = time_of i /\ p_tags p = tags_of i
    /\ (near eb extra (value_of position i) (from_bits (p_value p)) \/ exception x (time_of i)).

  Record stored_as (position : nat) (eb : error_bound) (x : stored_segment) (part : list item) : Prop := {
    sa_some : part <> [];
    sa_tags : forall i, In i part -> tags_of i = st_tags x;
    sa_start : sg_start_time (st_segment x) = hd 0%Z (map time_of part);
    sa_points : Forall2 (point_for position eb x) (grid_stored P x) part;
    sa_span : forall i, In i part ->
      (sg_start_time (st_segment x) <= time_of i <= sg_end_time (st_segment x))%Z }.

  Record good_buffer (g : Pipeline.segments) : Prop := {
    gb_order : StronglySorted PipelineSpec.earlier (Pipeline.g_points g);
    gb_items : incl (segment_items g) l;
    gb_unique : NoDup (map time_of (segment_items g)) }.

  Lemma near_more eb e e' v w : (e <= e')%R -> near eb e v w -> near eb e' v w.
  Proof. unfold near. intros H [H1|[H1 [H2 H3]]]; [left; exact H1|]. right. repeat split; try assumption. lra. Qed.

  Lemma rounding_more n n' : n <= n' -> (rounding size latest interval n <= rounding size latest interval n')%R.
  Proof.
    intros H. unfold rounding. apply Rplus_le_compat_r. apply Rmult_le_compat_l; [apply (size_small _ _ _ _ _ _ Hstore)|].
    apply Rplus_le_compat_l. apply le_INR in H. unfold Rdiv. apply Rmult_le_compat_r; [|lra].
    apply Rlt_le, Rinv_0_lt_compat. apply pow_lt. lra.
  Qed.

  Lemma buffer_length g : good_buffer g -> length (Pipeline.g_points g) <= length l.
  Proof.
    intros [_ Hi Hu]. rewrite <- (map_length Pipeline.p_time), <- times_of_items, map_length.
    apply NoDup_incl_length; [|exact Hi]. apply (NoDup_map_inv time_of). exact Hu.
  Qed.

  (** The times of a buffer. *)
  Lemma buffer_sorted g : good_buffer g ->
    StronglySorted (fun x y => time_of x + interval <= time_of y)%Z (segment_items g).
  Proof.
    intros [Ho Hi Hu].
    assert (Hs : StronglySorted (fun x y => time_of x <= time_of y)%Z (segment_items g)).
    { clear - Ho. unfold PipelineSpec.segment_items, PipelineSpec.items.
      induction Ho as [|p pts Hs IH F]; [constructor|]. cbn [map]. constructor; [exact IH|].
      rewrite Forall_forall in *. intros x Hx. apply in_map_iff in Hx. destruct Hx as [q [<- Hq]]. exact (F q Hq). }
    assert (Ht : forall x, In x (segment_items g) -> tags_of x = Pipeline.g_tags g) by (apply tags_of_items).
    revert Hs Ht Hi Hu. generalize (segment_items g). intros k Hs Ht Hi Hu.
    induction Hs as [|x k Hs IH F]; [constructor|]. constructor.
    - apply IH.
      + intros y Hy. apply Ht. right. exact Hy.
      + intros y Hy. apply Hi. right. exact Hy.
      + inversion Hu; assumption.
    - rewrite Forall_forall in *. intros y Hy. specialize (F y Hy).
      assert (Hne : time_of x <> time_of y).
      { inversion Hu as [|a b Hn _]; subst. intros E. apply Hn. rewrite E. apply in_map. exact Hy. }
      pose proof (times_apart _ _ _ _ _ _ Hstore x y (Hi x (or_introl eq_refl)) (Hi y (or_intror Hy))) as Hd.
      rewrite (Ht x (or_introl eq_refl)), (Ht y (or_intror Hy)) in Hd. specialize (Hd eq_refl).
      assert (Hxy : x <> y) by (intros ->; apply Hne; reflexivity). specialize (Hd Hxy). lia.
  Qed.

  Lemma buffer_stored g position column name eb : good_buffer g -> field_at m position column name eb ->
    exists xs parts, compress_field P m position column g = Ok xs
      /\ concat parts = segment_items g /\ Forall2 (stored_as position eb) xs parts.
  Proof.
    intros Hg Hf. pose proof (buffer_sorted g Hg) as Hs. pose proof (buffer_length g Hg) as Hlen.
    destruct Hg as [Ho Hi Hu].
    unfold compress_field. rewrite (field_bound _ _ _ _ _ Hf).
    rewrite <- times_of_items, <- values_of_items.
    destruct (segment_items g) as [|i0 is] eqn:Eg.
    { exists [], []. repeat split. constructor. }
    rewrite <- Eg in *. set (items := segment_items g) in *.
    assert (Hne : items <> []) by (rewrite Eg; discriminate).
    assert (Htag : forall i, In i items -> tags_of i = Pipeline.g_tags g) by (apply tags_of_items).
    assert (Hlen' : length items <= length l).
    { unfold items. rewrite <- (map_length time_of), times_of_items, map_length. exact Hlen. }
    clearbody items. clear Eg i0 is Ho Hlen.
    assert (Hsorted : StronglySorted (fun t t' => t + interval <= t')%Z (map time_of items)).
    { clear - Hs. induction Hs as [|x k Hs IH F]; [constructor|]. cbn [map]. constructor; [exact IH|].
      rewrite Forall_forall in *. intros t Ht. apply in_map_iff in Ht. destruct Ht as [y [<- Hy]]. exact (F y Hy). }
    destruct Hstore as [H1 H2 H3 H4 H5 H6 H7 H8 H9 H10].
    assert (Hin : forall t, In t (map time_of items) -> (Z.abs t <= latest)%Z).
    { intros t Ht. apply in_map_iff in Ht. destruct Ht as [x [<- Hx]]. apply H7, Hi, Hx. }
    assert (Hn : (INR (length items) <= INR (length l))%R) by (apply le_INR; exact Hlen').
    assert (Hlat : (0 <= latest)%Z).
    { destruct items as [|x k]; [contradiction Hne; reflexivity|]. specialize (Hin (time_of x) (or_introl eq_refl)). lia. }
    assert (Hq : (0 <= IZR latest / IZR interval)%R).
    { apply Rmult_le_pos; [apply IZR_le; exact Hlat|]. apply Rlt_le, Rinv_0_lt_compat. apply IZR_lt. lia. }
    assert (Hvt : valid_timestamps (map time_of items)).
    { split; [|split; [|split]].
      - destruct items; [contradiction Hne; reflexivity|discriminate].
      - apply Forall_forall. intros t Ht. specialize (Hin t Ht). unfold is_i64. lia.
      - unfold strictly_increasing. revert Hsorted. apply sorted_weaken. intros a b _ _ H. lia.
      - rewrite map_length.
        assert (Hr : (IZR (Z.of_nat (length items)) <= IZR (2 ^ 44))%R).
        { rewrite <- INR_IZR_INZ. replace (IZR (2 ^ 44)) with (2 ^ 44)%R by (rewrite (pow_IZR 2 44); reflexivity). lra. }
        apply le_IZR in Hr. lia. }
    destruct (compress_restores_near P eb (map time_of items) (map (value_of position) items) size latest interval)
      as (segs & parts & E1 & E2 & E3); try assumption.
    - assert (Hv : In eb (error_bounds m)) by (apply (nth_error_In _ column); apply (field_bound _ _ _ _ _ Hf)).
      pose proof (valid_bounds _ Hvalid) as Hb. rewrite Forall_forall in Hb. apply Hb. exact Hv.
    - intros e ->. destruct (H9 position column name e Hf) as [H|[H|H]]; [left; exact H|right; left|right; right];
        intros v Hv Hfin; apply H; try assumption; apply in_map_iff in Hv; destruct Hv as [x [<- Hx]]; apply in_map, Hi, Hx.
    - apply Forall_forall. intros v Hv. apply in_map_iff in Hv. destruct Hv as [x [<- Hx]].
      apply (H10 position column name eb x Hf (Hi x Hx)).
    - apply Forall_forall. intros v Hv. apply in_map_iff in Hv. destruct Hv as [x [<- Hx]].
      apply (H10 position column name eb x Hf (Hi x Hx)).
    - intros t t' Ht Ht'. pose proof (Hin t Ht). pose proof (Hin t' Ht'). unfold is_i64. lia.
    - rewrite !map_length. reflexivity.
    - rewrite map_length. lra.
    - apply Forall_forall. exact Hin.
    - apply Forall_forall. intros v Hv. apply in_map_iff in Hv. destruct Hv as [x [<- Hx]].
      apply (H10 position column name eb x Hf (Hi x Hx)).
    - rewrite map_length in E3.
      destruct (compress_covers P eb (map time_of items) (map (value_of position) items) Hvt) as (segs' & cov & C1 & C2 & C3);
        [rewrite !map_length; reflexivity|].
      assert (segs' = segs) by congruence. subst segs'.
      rewrite E1. rewrite combine_maps in E2.
      destruct (split_concat _ parts items E2) as [lp [L1 L2]].
      exists (map (Stored (Pipeline.g_tags g)) segs), lp. split; [reflexivity|]. split; [exact L1|].
      assert (Hcov : forall s, In s segs -> exists c, covers s c).
      { clear - C3. intros s Hs. induction C3 as [|a b la lb Hab F IH]; [contradiction Hs|].
        destruct Hs as [<-|Hs]; [exists b; exact Hab|exact (IH Hs)]. }
      assert (Htag' : forall part i, In part lp -> In i part -> tags_of i = Pipeline.g_tags g).
      { intros part i Hp Hx. apply Htag. rewrite <- L1. apply in_concat. exists part. split; assumption. }
      assert (Hinc : forall part, In part lp -> strictly_increasing (map time_of part)).
      { intros part Hp. rewrite <- L1 in Hs. pose proof (proj1 (sorted_parts _ _ Hs) part Hp) as Hpart.
        clear - Hpart H3. unfold strictly_increasing. induction Hpart as [|x k Hk IH F]; [constructor|].
        cbn [map]. constructor; [exact IH|]. rewrite Forall_forall in *. intros t Ht.
        apply in_map_iff in Ht. destruct Ht as [y [<- Hy]]. specialize (F y Hy). lia. }
      rewrite <- L2 in E3. clear - E3 Hcov Htag' Hinc H5 Hlen' Hstore.
      revert Hcov Htag' Hinc. remember (map (map (fun x => (time_of x, value_of position x))) lp) as q eqn:Eq.
      revert lp Eq. induction E3 as [|s part segs parts Hsp F IH]; intros lp Eq Hcov Htag Hinc.
      { destruct lp; [constructor|discriminate Eq]. }
      destruct lp as [|it lp]; [discriminate Eq|]. cbn [map] in Eq. injection Eq as -> Eq.
      cbn [map]. constructor.
      2:{ apply IH; [exact Eq| | |intros p Hp; apply Hinc; right; exact Hp].
          - intros x Hx. apply Hcov. right. exact Hx.
          - intros p i Hp Hx. apply (Htag p i); [right; exact Hp|exact Hx]. }
      destruct (Hcov s (or_introl eq_refl)) as [c Hc].
      destruct Hsp as (out & G1 & G2 & G3). rewrite map_map in G1. cbn [fst] in G1.
      change (map (fun x : item => time_of x) it) with (map time_of it) in G1.
      pose proof (grid_times P s _ _ G1) as G4.
      pose proof Hc as Hc'. destruct Hc as (K1 & K2 & _ & K4 & _). rewrite K4 in G4. injection G4 as G4.
      constructor; cbn [st_tags st_segment].
      + intros ->. cbn [map] in G4. destruct c; [contradiction K1; reflexivity|discriminate G4].
      + intros i Hx. apply (Htag it i); [left; reflexivity|exact Hx].
      + rewrite K2, G4. reflexivity.
      + unfold grid_stored. cbn [st_segment st_tags]. rewrite G1.
        rewrite map_length in G2, G3. cbv zeta in G3. set (k := if (sg_model_type_id s =? swing_id)%Z then _ else _) in G3.
        rewrite firstn_map, map_map in G3. cbn [snd] in G3.
        pose proof (zip_points time_of (value_of position) _ it out k G2 G3) as Z.
        assert (Hex : forall t, In t (skipn k (map time_of it)) -> exception (Stored (Pipeline.g_tags g) s) t).
        { intros t Ht. subst k. unfold exception. cbn [st_segment].
          destruct (sg_model_type_id s =? swing_id)%Z eqn:Em.
          - apply Z.eqb_eq in Em. split; [exact Em|]. exists (map time_of it), out. split; [exact G1|].
            rewrite map_length. exact Ht.
          - rewrite skipn_all2 in Ht by (rewrite map_length; apply Nat.le_refl). contradiction Ht. }
        assert (Hto : forall i, In i it -> tags_of i = Pipeline.g_tags g).
        { intros i Hx. apply (Htag it i); [left; reflexivity|exact Hx]. }
        clear - Z Hex Hto H5 Hlen' Hstore. revert Hto Z.
        generalize (combine (map time_of it) out). intros cm Hto Z.
        revert Hex Hto Z. generalize (skipn k (map time_of it)). intros ex Hex Hto Z.
        induction Z as [|p i cm it [Z1 Z2] F IH]; [constructor|]. cbn [map]. constructor.
        * unfold point_for. cbn [p_time p_tags p_value].
          split; [exact Z1|]. split; [symmetry; apply Hto; left; reflexivity|].
          rewrite from_to_bits. destruct Z2 as [Z2|Z2]; [left|right; apply Hex; exact Z2].
          revert Z2. apply near_more. apply rounding_more. exact Hlen'.
        * apply IH. intros j Hj. apply Hto. right. exact Hj.
      + intros i Hx. assert (Ht : In (time_of i) (map fst c)) by (rewrite G4; apply in_map; exact Hx).
        apply in_map_iff in Ht. destruct Ht as [[t v] [Et Hv]]. cbn [fst] in Et. rewrite <- Et.
        apply (FiltersProofs.covers_times s c t v Hc'); [|exact Hv]. rewrite G4. apply Hinc. left. reflexivity.
  Qed.

  Lemma all_stored position column name eb : field_at m position column name eb -> forall gs,
    Forall good_buffer gs ->
    exists xs parts, all_segments P m position column gs = Ok xs
      /\ concat parts = flat_map segment_items gs /\ Forall2 (stored_as position eb) xs parts.
  Proof.
    intros Hf gs Hg. induction Hg as [|g gs Hg Hgs IH].
    - exists [], []. repeat split. constructor.
    - destruct (buffer_stored g position column name eb Hg Hf) as (xs & parts & E1 & E2 & E3).
      destruct IH as (xs' & parts' & F1 & F2 & F3). exists (xs ++ xs'), (parts ++ parts').
      cbn [all_segments]. rewrite E1, F1. cbn [bind]. split; [reflexivity|].
      split; [rewrite concat_app, E2, F2; reflexivity|]. apply Forall2_app; assumption.
  Qed.
End Store.
