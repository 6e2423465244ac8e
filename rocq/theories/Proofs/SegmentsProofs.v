(** Lemmas about the segments created for one time series. *)
From Coq Require Import ZArith Bool Lia List Sorting.Sorted.
From Verif Require Import Model.Base Model.Bits Model.Timestamps Model.Float Model.ErrorBound
  Model.MacaqueV Model.Pmc Model.Swing Model.Segments
  Spec.TimestampsSpec Spec.PmcSpec Spec.SwingSpec Spec.SegmentsSpec
  Proofs.TimestampsProofs Proofs.MacaqueVProofs.
Import ListNotations.
Open Scope Z_scope.

Notation point := (Z * f32)%type.

Lemma skipn_skipn : forall (A : Type) a b (l : list A), skipn a (skipn b l) = skipn (a + b) l.
Proof.
  intros A a b. induction b as [|b IH]; intros l; [now rewrite Nat.add_0_r|].
  rewrite Nat.add_succ_r. destruct l as [|x l]; [rewrite !skipn_nil; reflexivity|]. cbn [skipn]. apply IH.
Qed.

(** ** Longest accepted prefixes *)
Section Fit.
Context {A M : Type} (fit : M -> A -> bool * M).

Fixpoint fit_all (m : M) (l : list A) : option M :=
  match l with
  | [] => Some m
  | a :: l => match fit m a with (true, m') => fit_all m' l | (false, _) => None end
  end.

Lemma fit_all_app : forall l1 l2 m,
  fit_all m (l1 ++ l2) = match fit_all m l1 with Some m' => fit_all m' l2 | None => None end.
Proof.
  induction l1 as [|a l1 IH]; intros l2 m; cbn [app fit_all]; [reflexivity|].
  destruct (fit m a) as [[] m']; [apply IH|reflexivity].
Qed.

Lemma fit_all_prefix : forall l k k' m, (k <= k')%nat -> fit_all m (firstn k l) = None ->
  fit_all m (firstn k' l) = None.
Proof.
  intros l k k' m Hk H. rewrite <- (firstn_skipn k (firstn k' l)), fit_all_app.
  rewrite firstn_firstn. replace (Init.Nat.min k k') with k by lia. now rewrite H.
Qed.
End Fit.

Lemma longest_intro : forall (A M : Type) (fit : M -> A -> bool * M) m0 (l : list A) k m,
  (k <= length l)%nat -> fit_all fit m0 (firstn k l) = Some m ->
  (k = length l \/ fit_all fit m0 (firstn (S k) l) = None) ->
  longest (fit_all fit m0) l k m.
Proof.
  intros A M fit m0 l k m Hk H1 H2. split; [exact Hk|]. split; [exact H1|].
  intros k' Hk'. destruct H2 as [->|H2]; [lia|]. apply (fit_all_prefix fit l (S k)); [lia|exact H2].
Qed.

Lemma pmc_fit_all_gen : forall P l m,
  pmc_fit_all P m (map snd l) = fit_all (fun m (p : point) => pmc_fit_value P m (snd p)) m l.
Proof.
  induction l as [|[t v] l IH]; intros m; cbn [map pmc_fit_all fit_all snd]; [reflexivity|].
  destruct (pmc_fit_value P m v) as [[] m']; [apply IH|reflexivity].
Qed.
Lemma swing_fit_all_gen : forall P l m,
  swing_fit_data_points P m l
  = fit_all (fun m (p : point) => swing_fit_data_point P m (fst p) (snd p)) m l.
Proof.
  induction l as [|[t v] l IH]; intros m; cbn [swing_fit_data_points fit_all fst snd]; [reflexivity|].
  destruct (swing_fit_data_point P m t v) as [[] m']; [apply IH|reflexivity].
Qed.

Lemma pmc_fit_length : forall P m v m', pmc_fit_value P m v = (true, m') -> pmc_length m' = S (pmc_length m).
Proof.
  intros P m v m' H. unfold pmc_fit_value in H.
  destruct (is_value_within_error_bound _ _ _ && is_value_within_error_bound _ _ _); [|discriminate].
  apply (f_equal snd) in H. cbn [snd] in H. subst. reflexivity.
Qed.
Lemma pmc_fit_rejected : forall P m v m', pmc_fit_value P m v = (false, m') -> m' = m.
Proof.
  intros P m v m' H. unfold pmc_fit_value in H.
  destruct (is_value_within_error_bound _ _ _ && is_value_within_error_bound _ _ _); [discriminate|].
  now apply (f_equal snd) in H.
Qed.
Lemma swing_fit_length : forall N m t v m',
  swing_fit N m t v = (true, m') -> sw_length m' = S (sw_length m).
Proof.
  intros N m t v m' H. unfold swing_fit in H.
  destruct (Nat.eqb (sw_length m) 0) eqn:E0.
  { apply (f_equal snd) in H. cbn [snd] in H. subst. apply Nat.eqb_eq in E0. rewrite E0. reflexivity. }
  destruct (negb (num_is_finite N (sw_first_value m)) || negb (num_is_finite N v)).
  { destruct (num_equal_or_nan N (sw_first_value m) v); [|discriminate].
    apply (f_equal snd) in H. cbn [snd] in H. subst. reflexivity. }
  destruct (Nat.eqb (sw_length m) 1) eqn:E1.
  { apply (f_equal snd) in H. cbn [snd] in H. subst. apply Nat.eqb_eq in E1. rewrite E1. reflexivity. }
  cbv zeta in H.
  match type of H with (if ?c then _ else _) = _ => destruct c; [discriminate|] end.
  apply (f_equal snd) in H. cbn [snd] in H. subst. reflexivity.
Qed.
Lemma swing_fit_rejected : forall N m t v m', swing_fit N m t v = (false, m') -> m' = m.
Proof.
  intros N m t v m' H. unfold swing_fit in H.
  destruct (Nat.eqb (sw_length m) 0); [discriminate|].
  destruct (negb (num_is_finite N (sw_first_value m)) || negb (num_is_finite N v)).
  { destruct (num_equal_or_nan N (sw_first_value m) v); [discriminate|]. now apply (f_equal snd) in H. }
  destruct (Nat.eqb (sw_length m) 1); [discriminate|].
  cbv zeta in H.
  match type of H with (if ?c then _ else _) = _ => destruct c; [|discriminate] end.
  now apply (f_equal snd) in H.
Qed.

Lemma pmc_fit_all_length : forall P vs m m', pmc_fit_all P m vs = Some m' ->
  pmc_length m' = (pmc_length m + length vs)%nat.
Proof.
  induction vs as [|v vs IH]; intros m m' H; cbn [pmc_fit_all length] in *.
  - replace m' with m by congruence. lia.
  - destruct (pmc_fit_value P m v) as [[] m1] eqn:E; [|discriminate].
    rewrite (IH _ _ H), (pmc_fit_length _ _ _ _ E). lia.
Qed.
Lemma swing_fit_all_length : forall P pts m m', swing_fit_data_points P m pts = Some m' ->
  sw_length m' = (sw_length m + length pts)%nat.
Proof.
  induction pts as [|[t v] pts IH]; intros m m' H; cbn [swing_fit_data_points length] in *.
  - replace m' with m by congruence. lia.
  - destruct (swing_fit_data_point P m t v) as [[] m1] eqn:E; [|discriminate].
    rewrite (IH _ _ H), (swing_fit_length _ _ _ _ _ E). lia.
Qed.

(** ** Fitting the next model *)
Section Segments.
Context (P : platform) (eb : error_bound).

Notation pmc_step := (fun m (p : point) => pmc_fit_value P m (snd p)).
Notation swing_step := (fun m (p : point) => swing_fit_data_point P m (fst p) (snd p)).
Notation pmc0 := (pmc_new eb).
Notation swing0 := (swing_new (f64_num P) eb).

Definition fit_state {M : Type} (fit : M -> point -> bool * M) (m0 : M) (could : bool) (m : M)
  (read : list point) : Prop :=
  exists k, (k <= length read)%nat /\ fit_all fit m0 (firstn k read) = Some m
    /\ if could then k = length read
       else (k < length read)%nat /\ fit_all fit m0 (firstn (S k) read) = None.

Lemma fit_state_step : forall (M : Type) (fit : M -> point -> bool * M) m0 could m read p b m',
  (forall m p m', fit m p = (false, m') -> m' = m) ->
  fit_state fit m0 could m read ->
  (if could then fit m p else (false, m)) = (b, m') ->
  fit_state fit m0 b m' (read ++ [p]).
Proof.
  intros M fit m0 could m read p b m' Hrej (k & Hk & Hm & Hc) H. destruct could.
  - subst k. rewrite firstn_all in Hm. destruct b.
    + exists (length (read ++ [p])). split; [lia|]. split; [|reflexivity].
      rewrite firstn_all, fit_all_app, Hm. cbn [fit_all]. rewrite H. reflexivity.
    + exists (length read). rewrite app_length. cbn [length]. split; [lia|].
      assert (Hf : firstn (length read) (read ++ [p]) = read).
      { rewrite firstn_app, firstn_all, Nat.sub_diag. cbn [firstn]. apply app_nil_r. }
      rewrite Hf, (Hrej _ _ _ H). split; [exact Hm|]. split; [lia|].
      rewrite firstn_all2 by (rewrite app_length; cbn [length]; lia).
      rewrite fit_all_app, Hm. cbn [fit_all]. rewrite H. reflexivity.
  - assert (Hb : b = false /\ m' = m) by (split; congruence). destruct Hb as [-> ->].
    destruct Hc as [Hlt Hn]. exists k. rewrite app_length. cbn [length]. split; [lia|].
    assert (Hf : forall i, (i <= length read)%nat -> firstn i (read ++ [p]) = firstn i read).
    { intros i Hi. rewrite firstn_app. replace (i - length read)%nat with 0%nat by lia.
      cbn [firstn]. apply app_nil_r. }
    rewrite !Hf by lia. auto with arith.
Qed.

Lemma fit_state_longest : forall (M : Type) (fit : M -> point -> bool * M) m0 could m read rest,
  fit_state fit m0 could m read -> (rest = [] \/ could = false) ->
  exists k, longest (fit_all fit m0) (read ++ rest) k m.
Proof.
  intros M fit m0 could m read rest (k & Hk & Hm & Hc) H. exists k.
  assert (Hf : forall i, (i <= length read)%nat -> firstn i (read ++ rest) = firstn i read).
  { intros i Hi. rewrite firstn_app. replace (i - length read)%nat with 0%nat by lia.
    cbn [firstn]. apply app_nil_r. }
  apply longest_intro.
  - rewrite app_length. lia.
  - rewrite Hf by lia. exact Hm.
  - destruct could.
    + destruct H as [->|H]; [|discriminate]. left. rewrite app_nil_r. exact Hc.
    + right. destruct Hc as [Hlt Hn]. now rewrite Hf by lia.
Qed.

Lemma fit_loop_longest : forall rest read mb,
  fit_state pmc_step pmc0 (mb_pmc_could_fit_all mb) (mb_pmc mb) read ->
  fit_state swing_step swing0 (mb_swing_could_fit_all mb) (mb_swing mb) read ->
  (exists k, longest (fit_all pmc_step pmc0) (read ++ rest) k (mb_pmc (fit_loop P mb rest)))
  /\ (exists k, longest (fit_all swing_step swing0) (read ++ rest) k (mb_swing (fit_loop P mb rest)))
  /\ mb_start_index (fit_loop P mb rest) = mb_start_index mb.
Proof.
  induction rest as [|[t v] rest IH]; intros read mb Hp Hs.
  - cbn [fit_loop]. split; [|split; [|reflexivity]]; eapply fit_state_longest; eauto.
  - cbn [fit_loop]. destruct (try_to_update_models P mb t v) as [more mb'] eqn:E.
    unfold try_to_update_models in E.
    destruct (if mb_pmc_could_fit_all mb then pmc_fit_value P (mb_pmc mb) v
              else (false, mb_pmc mb)) as [bp mp] eqn:Ep.
    destruct (if mb_swing_could_fit_all mb then swing_fit_data_point P (mb_swing mb) t v
              else (false, mb_swing mb)) as [bs ms] eqn:Es.
    assert (E1 : more = bp || bs) by congruence.
    assert (E2 : mb' = ModelBuilder (mb_start_index mb) mp bp ms bs) by congruence. clear E.
    pose proof (fit_state_step _ pmc_step pmc0 _ _ _ (t, v) _ _
                  (fun m p m' => pmc_fit_rejected P m (snd p) m') Hp Ep) as Hp'.
    pose proof (fit_state_step _ swing_step swing0 _ _ _ (t, v) _ _
                  (fun m p m' => swing_fit_rejected (f64_num P) m (fst p) (f64_of_f32 (snd p)) m')
                  Hs Es) as Hs'.
    replace (read ++ (t, v) :: rest) with ((read ++ [(t, v)]) ++ rest)
      by (rewrite <- app_assoc; reflexivity).
    destruct more.
    + subst mb'.
      exact (IH (read ++ [(t, v)]) (ModelBuilder (mb_start_index mb) mp bp ms bs) Hp' Hs').
    + symmetry in E1. apply orb_false_iff in E1. destruct E1 as [-> ->]. subst mb'.
      cbn [mb_pmc mb_swing mb_start_index]. split; [|split; [|reflexivity]].
      * eapply fit_state_longest; [exact Hp'|auto].
      * eapply fit_state_longest; [exact Hs'|auto].
Qed.

(** The longest prefixes that the two model types accept decide which model is used. *)
Lemma fit_next_model_spec : forall c points,
  exists np mp ns ms,
    longest (fun l => pmc_fit_all P pmc0 (map snd l)) (skipn c points) np mp
    /\ longest (fun l => swing_fit_data_points P swing0 l) (skipn c points) ns ms
    /\ pmc_length mp = np /\ sw_length ms = ns
    /\ fit_next_model P c eb points =
       if f32_lt (swing_bytes_per_value ns) (pmc_bytes_per_value np)
       then select_swing P c ms else select_pmc_mean c mp.
Proof.
  intros c points. unfold fit_next_model, model_builder_finish.
  destruct (fit_loop_longest (skipn c points) [] (model_builder_new P c eb)) as ((np & Hp) & (ns & Hs) & Hi).
  { exists 0%nat. cbn. auto. }
  { exists 0%nat. cbn. auto. }
  set (mb := fit_loop P (model_builder_new P c eb) (skipn c points)) in *.
  exists np, (mb_pmc mb), ns, (mb_swing mb). cbn [app] in Hp, Hs.
  assert (Lp : longest (fun l => pmc_fit_all P pmc0 (map snd l)) (skipn c points) np (mb_pmc mb)).
  { destruct Hp as (H1 & H2 & H3). split; [exact H1|]. split; [rewrite pmc_fit_all_gen; exact H2|].
    intros k' Hk'. rewrite pmc_fit_all_gen. auto. }
  assert (Ls : longest (fun l => swing_fit_data_points P swing0 l) (skipn c points) ns (mb_swing mb)).
  { destruct Hs as (H1 & H2 & H3). split; [exact H1|]. split; [rewrite swing_fit_all_gen; exact H2|].
    intros k' Hk'. rewrite swing_fit_all_gen. auto. }
  assert (Np : pmc_length (mb_pmc mb) = np).
  { destruct Lp as (H1 & H2 & _). apply pmc_fit_all_length in H2. rewrite H2, map_length, firstn_length.
    cbn [pmc_length pmc_new]. lia. }
  assert (Ns : sw_length (mb_swing mb) = ns).
  { destruct Ls as (H1 & H2 & _). apply swing_fit_all_length in H2. rewrite H2, firstn_length.
    cbn [sw_length swing_new]. lia. }
  rewrite Np, Ns, Hi. cbn [mb_start_index model_builder_new]. auto.
Qed.

(** A model that is kept. *)
Definition fitted (sb : segment_builder) (i : nat) (mpts : list point) : Prop :=
  (8 <= length mpts)%nat
  /\ ((exists m, sb = select_pmc_mean i m /\ pmc_fit_all P pmc0 (map snd mpts) = Some m)
      \/ (exists m, sb = select_swing P i m /\ swing_fit_data_points P swing0 mpts = Some m)).

Lemma fitted_indices : forall sb i mpts, fitted sb i mpts ->
  sb_start_index sb = i /\ sb_end_index sb = (i + length mpts - 1)%nat.
Proof.
  intros sb i mpts (_ & [(m & -> & H)|(m & -> & H)]).
  - apply pmc_fit_all_length in H. rewrite map_length in H. cbn [pmc_length pmc_new] in H.
    cbn [select_pmc_mean sb_start_index sb_end_index]. rewrite H. auto.
  - apply swing_fit_all_length in H. cbn [sw_length swing_new] in H.
    unfold select_swing. destruct (swing_model P m) as [f l].
    cbn [sb_start_index sb_end_index]. rewrite H. auto.
Qed.

Lemma pmc_bytes_small : forall n,
  f32_le (pmc_bytes_per_value n) value_size_in_bytes_f32 = true -> (8 <= n)%nat.
Proof.
  intros n H. destruct (le_lt_dec 8 n) as [Hn|Hn]; [exact Hn|]. exfalso.
  assert (G : f32_le (pmc_bytes_per_value n) value_size_in_bytes_f32 = false).
  { clear H. do 8 (destruct n as [|n]; [vm_compute; reflexivity|]). lia. }
  rewrite G in H. clear G. discriminate H.
Qed.
Lemma swing_bytes_small : forall n,
  f32_le (swing_bytes_per_value n) value_size_in_bytes_f32 = true -> (8 <= n)%nat.
Proof.
  intros n H. destruct (le_lt_dec 8 n) as [Hn|Hn]; [exact Hn|]. exfalso.
  assert (G : f32_le (swing_bytes_per_value n) value_size_in_bytes_f32 = false).
  { clear H. do 8 (destruct n as [|n]; [vm_compute; reflexivity|]). lia. }
  rewrite G in H. clear G. discriminate H.
Qed.

Lemma fit_kept : forall c points,
  f32_le (sb_bytes_per_value (fit_next_model P c eb points)) value_size_in_bytes_f32 = true ->
  exists k, (k <= length (skipn c points))%nat
    /\ fitted (fit_next_model P c eb points) c (firstn k (skipn c points)).
Proof.
  intros c points H.
  destruct (fit_next_model_spec c points) as (np & mp & ns & ms & Hp & Hs & Np & Ns & E).
  rewrite E in *. clear E.
  destruct (f32_lt (swing_bytes_per_value ns) (pmc_bytes_per_value np)).
  - unfold select_swing in H. destruct (swing_model P ms) as [f l] eqn:Em.
    cbn [sb_bytes_per_value] in H. rewrite Ns in H. apply swing_bytes_small in H.
    destruct Hs as (H1 & H2 & _). exists ns. split; [exact H1|]. split.
    + rewrite firstn_length. lia.
    + right. exists ms. auto.
  - cbn [select_pmc_mean sb_bytes_per_value] in H. rewrite Np in H. apply pmc_bytes_small in H.
    destruct Hp as (H1 & H2 & _). exists np. split; [exact H1|]. split.
    + rewrite firstn_length. lia.
    + left. exists mp. auto.
Qed.

(** ** Segments from lists of data points instead of indices *)
Definition assemble (sb : segment_builder) (mpts rpts : list point) : segment :=
  let ts := map fst (mpts ++ rpts) in
  match rpts with
  | [] => Segment (sb_model_type_id sb) (first_timestamp ts) (last_timestamp ts)
            (compress_residual_timestamps ts) (sb_min sb) (sb_max sb) (sb_values sb) []
  | _ =>
      let '(residuals, residuals_min, residuals_max) :=
        macaque_v_model (compress_values_without_first P (macaque_v_new eb)
          (map snd rpts) (sb_model_last_value sb)) in
      let values :=
        if sb_model_type_id sb =? pmc_mean_id
        then encode_values_for_pmc_mean (sb_min sb) (sb_max sb) residuals_min residuals_max
        else encode_values_for_swing (sb_min sb) (sb_max sb)
               (match sb_values sb with [] => true | _ => false end) residuals_min residuals_max in
      Segment (sb_model_type_id sb) (first_timestamp ts) (last_timestamp ts)
        (compress_residual_timestamps ts)
        (f32_min P (sb_min sb) residuals_min) (f32_max P (sb_max sb) residuals_max) values
        (residuals ++ [Z.of_nat (length rpts)])
  end.

Definition assemble_residuals (pts : list point) : segment :=
  let ts := map fst pts in
  let '(values, min, max) :=
    macaque_v_model (compress_values P (macaque_v_new eb) (map snd pts)) in
  Segment macaque_v_id (first_timestamp ts) (last_timestamp ts)
    (compress_residual_timestamps ts) min max values [].

Lemma nth_first : forall (pre a post : list point), a <> [] ->
  nth (length pre) (map fst (pre ++ a ++ post)) 0 = first_timestamp (map fst a).
Proof.
  intros pre a post Ha. destruct a as [|x a]; [congruence|].
  rewrite map_app, app_nth2 by (rewrite map_length; lia).
  rewrite map_length, Nat.sub_diag. reflexivity.
Qed.

Lemma last_nth : forall (l : list Z) d, l <> [] -> last l d = nth (length l - 1) l d.
Proof.
  induction l as [|x l IH]; intros d H; [congruence|]. destruct l as [|y l]; [reflexivity|].
  change (last (x :: y :: l) d) with (last (y :: l) d). rewrite IH by discriminate.
  cbn [length]. replace (S (S (length l)) - 1)%nat with (S (S (length l) - 1)) by lia. reflexivity.
Qed.

Lemma nth_last : forall (pre a post : list point) i, a <> [] ->
  i = (length pre + length a - 1)%nat ->
  nth i (map fst (pre ++ a ++ post)) 0 = last_timestamp (map fst a).
Proof.
  intros pre a post i Ha ->. unfold last_timestamp.
  assert (L : (1 <= length a)%nat) by (destruct a; [congruence|cbn; lia]).
  rewrite last_nth by (destruct a; [congruence|discriminate]).
  rewrite !map_app, app_nth2 by (rewrite map_length; lia).
  rewrite app_nth1 by (rewrite !map_length; lia). f_equal. rewrite !map_length. lia.
Qed.

Lemma slice_map : forall (B : Type) (f : point -> B) (pre a post : list point) i j, a <> [] ->
  i = length pre -> j = (length pre + length a - 1)%nat ->
  slice (map f (pre ++ a ++ post)) i j = map f a.
Proof.
  intros B f pre a post i j Ha -> ->. unfold slice.
  assert (L : (1 <= length a)%nat) by (destruct a; [congruence|cbn; lia]).
  rewrite !map_app, skipn_app, skipn_all2 by (rewrite map_length; lia).
  rewrite map_length, Nat.sub_diag. cbn [skipn app].
  rewrite firstn_app, map_length.
  replace (S (length pre + length a - 1) - length pre - length a)%nat with 0%nat by lia.
  cbn [firstn]. rewrite app_nil_r. apply firstn_all2. rewrite map_length. lia.
Qed.

Lemma segment_finish_list : forall sb pre mpts rpts post j,
  mpts <> [] -> (length rpts <= 255)%nat ->
  sb_start_index sb = length pre -> sb_end_index sb = (length pre + length mpts - 1)%nat ->
  j = (length pre + length mpts + length rpts - 1)%nat ->
  segment_finish P sb eb j (map fst (pre ++ mpts ++ rpts ++ post))
    (map snd (pre ++ mpts ++ rpts ++ post)) = assemble sb mpts rpts.
Proof.
  intros sb pre mpts rpts post j Hm Hr Hs He Hj.
  assert (L : (1 <= length mpts)%nat) by (destruct mpts; [congruence|cbn; lia]).
  assert (Ha : mpts ++ rpts <> []) by (destruct mpts; [congruence|discriminate]).
  unfold segment_finish, assemble. rewrite Hs.
  assert (E : pre ++ mpts ++ rpts ++ post = pre ++ (mpts ++ rpts) ++ post) by (rewrite <- app_assoc; reflexivity).
  assert (A1 : nth (length pre) (map fst (pre ++ mpts ++ rpts ++ post)) 0
               = first_timestamp (map fst (mpts ++ rpts))).
  { rewrite E. apply (nth_first pre (mpts ++ rpts) post Ha). }
  assert (A2 : nth j (map fst (pre ++ mpts ++ rpts ++ post)) 0
               = last_timestamp (map fst (mpts ++ rpts))).
  { rewrite E. apply (nth_last pre (mpts ++ rpts) post j Ha). rewrite app_length; lia. }
  assert (A3 : slice (map fst (pre ++ mpts ++ rpts ++ post)) (length pre) j
               = map fst (mpts ++ rpts)).
  { rewrite E. apply (slice_map _ fst pre (mpts ++ rpts) post); auto. rewrite ?app_length; lia. }
  rewrite A1, A2, A3.
  destruct rpts as [|p rpts].
  - replace (Nat.ltb (sb_end_index sb) j) with false; [reflexivity|].
    symmetry. apply Nat.ltb_ge. cbn [length] in *. lia.
  - replace (Nat.ltb (sb_end_index sb) j) with true
      by (symmetry; apply Nat.ltb_lt; cbn [length] in *; lia).
    assert (E2 : pre ++ mpts ++ (p :: rpts) ++ post = (pre ++ mpts) ++ (p :: rpts) ++ post)
      by (rewrite <- app_assoc; reflexivity).
    rewrite E2, (slice_map _ snd (pre ++ mpts) (p :: rpts) post) by (try discriminate; rewrite ?app_length; lia).
    destruct (macaque_v_model _) as [[residuals rmin] rmax].
    replace (u8 (u8 (Z.of_nat (j - S (sb_end_index sb))) + 1)) with (Z.of_nat (length (p :: rpts)));
      [reflexivity|].
    unfold u8. set (n := length (p :: rpts)) in *.
    assert (1 <= n)%nat by (unfold n; cbn [length]; lia).
    rewrite (Z.mod_small (Z.of_nat (j - S (sb_end_index sb)))) by lia. rewrite Z.mod_small by lia. lia.
Qed.

Lemma residual_segment_list : forall pre pts post i j, pts <> [] ->
  i = length pre -> j = (length pre + length pts - 1)%nat ->
  residual_segment P eb i j (map fst (pre ++ pts ++ post)) (map snd (pre ++ pts ++ post))
  = assemble_residuals pts.
Proof.
  intros pre pts post i j Hp -> ->. unfold residual_segment, assemble_residuals.
  rewrite !slice_map by auto. rewrite (nth_first pre pts post Hp), (nth_last pre pts post _ Hp eq_refl).
  reflexivity.
Qed.

(** ** The main loop *)
Inductive built : segment -> list point -> Prop :=
| built_model : forall sb i mpts rpts, fitted sb i mpts -> (length rpts <= 255)%nat ->
    built (assemble sb mpts rpts) (mpts ++ rpts)
| built_residuals : forall pts, pts <> [] -> built (assemble_residuals pts) pts.

Definition pending (previous : option segment_builder) (pre mpts : list point) : Prop :=
  match previous with
  | Some sb => fitted sb (length pre) mpts
  | None => pre = [] /\ mpts = []
  end.

Lemma store_built : forall previous pre mpts gap post,
  pending previous pre mpts -> mpts ++ gap <> [] ->
  let points := pre ++ mpts ++ gap ++ post in
  exists parts, concat parts = mpts ++ gap
    /\ Forall2 built (store_segments P eb previous (length (pre ++ mpts ++ gap) - 1)
                        (map fst points) (map snd points)) parts.
Proof.
  intros previous pre mpts gap post Hp Hne points. unfold store_segments.
  destruct previous as [sb|].
  - cbn [pending] in Hp. destruct (fitted_indices _ _ _ Hp) as [Hs He].
    assert (H8 : (8 <= length mpts)%nat) by (destruct Hp as [H _]; exact H).
    assert (Hm : mpts <> []) by (destruct mpts; [cbn in H8; lia|discriminate]).
    rewrite !app_length.
    destruct (Nat.leb_spec (length pre + (length mpts + length gap) - 1 - sb_end_index sb)
                residual_values_max_length) as [Hle|Hgt].
    + unfold residual_values_max_length in Hle.
      exists [mpts ++ gap]. split; [cbn [concat]; apply app_nil_r|].
      constructor; [|constructor]. unfold points.
      rewrite (segment_finish_list sb pre mpts gap post) by (try assumption; lia).
      apply built_model with (i := length pre); [exact Hp|lia].
    + unfold residual_values_max_length in Hgt.
      assert (Hg : gap <> []) by (destruct gap; [cbn [length] in Hgt; lia|discriminate]).
      exists [mpts; gap]. split; [cbn [concat]; now rewrite app_nil_r|].
      constructor; [|constructor; [|constructor]].
      * unfold points. change (pre ++ mpts ++ gap ++ post) with (pre ++ mpts ++ [] ++ gap ++ post).
        rewrite (segment_finish_list sb pre mpts [] (gap ++ post)) by (try assumption; cbn [length]; lia).
        rewrite <- (app_nil_r mpts) at 2. apply built_model with (i := length pre); [exact Hp|cbn; lia].
      * unfold points. replace (pre ++ mpts ++ gap ++ post) with ((pre ++ mpts) ++ gap ++ post)
          by (rewrite <- app_assoc; reflexivity).
        rewrite residual_segment_list by (try assumption; rewrite ?app_length; lia).
        now apply built_residuals.
  - destruct Hp as [-> ->]. cbn [app] in *. exists [gap]. split; [cbn; apply app_nil_r|].
    constructor; [|constructor]. unfold points.
    pose proof (residual_segment_list [] gap post 0 (length gap - 1) Hne eq_refl eq_refl) as E.
    cbn [app] in E. rewrite E. now apply built_residuals.
Qed.

Lemma compress_loop_built : forall points, points <> [] -> forall fuel c previous pre mpts gap,
  (length points - c < fuel)%nat -> (c <= length points)%nat ->
  pending previous pre mpts -> firstn c points = pre ++ mpts ++ gap ->
  exists segments parts,
    compress_loop fuel P eb (map fst points) (map snd points) c previous = Ok segments
    /\ concat parts = mpts ++ gap ++ skipn c points /\ Forall2 built segments parts.
Proof.
  intros points Hne. induction fuel as [|fuel IH]; intros c previous pre mpts gap Hf Hc Hp E; [lia|].
  cbn [compress_loop]. rewrite map_length.
  assert (Hlen : length (pre ++ mpts ++ gap) = c)
    by (rewrite <- E, firstn_length; lia).
  assert (Epts : points = pre ++ mpts ++ gap ++ skipn c points).
  { rewrite <- (firstn_skipn c points) at 1. rewrite E, <- !app_assoc. reflexivity. }
  assert (Ecombine : combine (map fst points) (map snd points) = points).
  { clear. induction points as [|[t v] l IH]; [reflexivity|]. cbn [map combine]. now rewrite IH. }
  rewrite Ecombine.
  assert (Hzero : mpts ++ gap = [] -> c = 0%nat).
  { intros H0. apply app_eq_nil in H0. destruct H0 as [-> ->]. destruct previous as [sb|].
    - destruct Hp as [H8 _]. cbn [length] in H8. lia.
    - destruct Hp as [-> _]. symmetry. exact Hlen. }
  destruct (Nat.ltb_spec c (length points)) as [Hlt|Hge].
  - destruct (f32_le (sb_bytes_per_value (fit_next_model P c eb points)) value_size_in_bytes_f32)
      eqn:Ekeep.
    + destruct (fit_kept c points Ekeep) as (k & Hk & Hfit).
      destruct (fitted_indices _ _ _ Hfit) as [_ Hend].
      set (model := fit_next_model P c eb points) in *.
      set (mpts' := firstn k (skipn c points)) in *.
      assert (H8 : (8 <= length mpts')%nat) by (destruct Hfit as [H _]; exact H).
      assert (Lk : length mpts' = k) by (unfold mpts'; rewrite firstn_length; lia).
      rewrite skipn_length in Hk.
      assert (Hend' : S (sb_end_index model) = (c + k)%nat) by lia.
      assert (Hnext : skipn c points = mpts' ++ skipn (c + k) points).
      { unfold mpts'. rewrite <- (firstn_skipn k (skipn c points)) at 1. f_equal.
        rewrite skipn_skipn. f_equal. lia. }
      destruct (IH (S (sb_end_index model)) (Some model) (firstn c points) mpts' [])
        as (segs & parts & E1 & E2 & E3).
      { lia. }
      { lia. }
      { cbn [pending]. rewrite firstn_length. replace (Init.Nat.min c (length points)) with c by lia.
        exact Hfit. }
      { rewrite Hend', app_nil_r. unfold mpts'.
        rewrite <- (firstn_skipn c points) at 1. rewrite firstn_app, firstn_length.
        replace (Init.Nat.min c (length points)) with c by lia.
        replace (c + k - c)%nat with k by lia. f_equal. apply firstn_all2. rewrite firstn_length. lia. }
      rewrite E1. cbn [bind]. rewrite Hend' in E2. cbn [app] in E2. rewrite <- Hnext in E2.
      destruct (Nat.ltb_spec 0 c) as [Hc0|Hc0].
      * assert (Hmg : mpts ++ gap <> []) by (intros H0; specialize (Hzero H0); lia).
        destruct (store_built previous pre mpts gap (skipn c points) Hp Hmg) as (parts0 & E4 & E5).
        cbv zeta in E5. rewrite <- Epts, Hlen in E5.
        eexists _, (parts0 ++ parts). split; [reflexivity|]. split.
        -- rewrite concat_app, E4, E2, <- app_assoc. reflexivity.
        -- apply Forall2_app; assumption.
      * assert (Hmg : mpts = [] /\ gap = []).
        { rewrite !app_length in Hlen. destruct mpts, gap; cbn [length] in Hlen; auto; lia. }
        destruct Hmg as [-> ->]. exists segs, parts. auto.
    + destruct (skipn c points) as [|p rest] eqn:Es.
      { exfalso. assert (length (skipn c points) = 0%nat) by now rewrite Es.
        rewrite skipn_length in H. lia. }
      assert (Es' : skipn (S c) points = rest).
      { change (S c) with (1 + c)%nat. rewrite <- skipn_skipn, Es. reflexivity. }
      destruct (IH (S c) previous pre mpts (gap ++ [p])) as (segs & parts & E1 & E2 & E3).
      { lia. }
      { lia. }
      { exact Hp. }
      { transitivity (firstn c points ++ [p]).
        - rewrite <- (firstn_skipn c points) at 1. rewrite Es, firstn_app, firstn_length.
          replace (Init.Nat.min c (length points)) with c by lia.
          replace (S c - c)%nat with 1%nat by lia.
          rewrite firstn_all2 by (rewrite firstn_length; lia). reflexivity.
        - rewrite E, <- !app_assoc. reflexivity. }
      exists segs, parts. split; [exact E1|]. split; [|exact E3].
      rewrite E2, Es', <- !app_assoc. reflexivity.
  - assert (Hc' : c = length points) by lia.
    assert (Hs : skipn c points = []) by (apply skipn_all2; lia).
    assert (Hmg : mpts ++ gap <> []).
    { intros H0. specialize (Hzero H0). destruct points; [congruence|cbn [length] in Hc'; lia]. }
    destruct (store_built previous pre mpts gap (skipn c points) Hp Hmg) as (parts0 & E4 & E5).
    cbv zeta in E5. rewrite <- Epts, Hlen, Hc' in E5.
    eexists _, parts0. split; [reflexivity|]. split; [|exact E5].
    rewrite E4, Hs, app_nil_r. reflexivity.
Qed.

Lemma combine_map : forall (ts : list Z) (vs : list f32), length ts = length vs ->
  map fst (combine ts vs) = ts /\ map snd (combine ts vs) = vs.
Proof.
  induction ts as [|t ts IH]; intros [|v vs] H; cbn [length combine map] in *; try discriminate; auto.
  destruct (IH vs ltac:(lia)) as [E1 E2]. cbn [fst snd]. now rewrite E1, E2.
Qed.

Lemma compress_built : forall ts vs, ts <> [] -> length ts = length vs ->
  exists segments parts, compress_univariate P eb ts vs = Ok segments
    /\ concat parts = combine ts vs /\ Forall2 built segments parts.
Proof.
  intros ts vs Hne Hl. unfold compress_univariate. rewrite Hl, Nat.eqb_refl. cbn [negb].
  destruct ts as [|t ts0] eqn:Ets; [congruence|]. rewrite <- Ets in *. clear Hne.
  destruct (combine_map ts vs Hl) as [E1 E2].
  assert (Hn : combine ts vs <> []).
  { intros H. rewrite H in E1. rewrite Ets in E1. discriminate. }
  destruct (compress_loop_built (combine ts vs) Hn (S (length vs)) 0 None [] [] [])
    as (segs & parts & H1 & H2 & H3).
  { rewrite combine_length. lia. }
  { lia. }
  { cbn. auto. }
  { reflexivity. }
  rewrite E1, E2 in H1. exists segs, parts. split; [rewrite Ets in *; exact H1|]. auto.
Qed.

(** ** Segments cover their data points *)
Lemma sorted_app_l : forall l1 l2 : list Z, StronglySorted Z.lt (l1 ++ l2) ->
  StronglySorted Z.lt l1 /\ StronglySorted Z.lt l2.
Proof.
  induction l1 as [|x l1 IH]; intros l2 H; cbn [app] in *; [split; [constructor|exact H]|].
  apply StronglySorted_inv in H. destruct H as [H1 H2]. destruct (IH _ H1) as [H3 H4].
  split; [|exact H4]. constructor; [exact H3|]. apply Forall_app in H2. apply H2.
Qed.

Lemma valid_app : forall l1 l2, valid_timestamps (l1 ++ l2) -> l1 <> [] -> valid_timestamps l1.
Proof.
  intros l1 l2 (H1 & H2 & H3 & H4) Hne. apply Forall_app in H2. apply sorted_app_l in H3.
  split; [exact Hne|]. split; [apply H2|]. split; [apply H3|]. rewrite app_length in H4. lia.
Qed.
Lemma valid_app_r : forall l1 l2, valid_timestamps (l1 ++ l2) -> l2 <> [] -> valid_timestamps l2.
Proof.
  intros l1 l2 (H1 & H2 & H3 & H4) Hne. apply Forall_app in H2. apply sorted_app_l in H3.
  split; [exact Hne|]. split; [apply H2|]. split; [apply H3|]. rewrite app_length in H4. lia.
Qed.

Lemma built_not_empty : forall s pts, built s pts -> pts <> [].
Proof.
  intros s pts H. destruct H as [sb i mpts rpts [H8 _] _|pts H]; [|exact H].
  destruct mpts; [cbn in H8; lia|discriminate].
Qed.

Lemma parts_valid : forall parts (ts : list Z),
  Forall (fun part : list point => part <> []) parts ->
  valid_timestamps ts -> map fst (concat parts) = ts ->
  Forall (fun part => valid_timestamps (map fst part)) parts.
Proof.
  induction parts as [|p parts IH]; intros ts Hne Hv E; [constructor|].
  apply Forall_cons_iff in Hne. destruct Hne as [Hp Hne]. cbn [concat] in E. rewrite map_app in E. subst ts.
  constructor.
  - apply (valid_app _ _ Hv). destruct p; [congruence|discriminate].
  - destruct parts as [|q parts]; [constructor|].
    apply (IH (map fst (concat (q :: parts))) Hne); [|reflexivity].
    apply (valid_app_r _ _ Hv). apply Forall_cons_iff in Hne. destruct Hne as [Hq _].
    destruct q; [congruence|discriminate].
Qed.

Lemma fitted_id : forall sb i mpts, fitted sb i mpts ->
  sb_model_type_id sb = pmc_mean_id \/ sb_model_type_id sb = swing_id.
Proof.
  intros sb i mpts (_ & [(m & -> & _)|(m & -> & _)]); [left; reflexivity|right].
  unfold select_swing. destruct (swing_model P m). reflexivity.
Qed.

Lemma assemble_fields : forall sb mpts rpts,
  let s := assemble sb mpts rpts in
  let ts := map fst (mpts ++ rpts) in
  sg_model_type_id s = sb_model_type_id sb /\ sg_start_time s = first_timestamp ts
  /\ sg_end_time s = last_timestamp ts /\ sg_timestamps s = compress_residual_timestamps ts
  /\ residuals_length (sg_residuals s) = length rpts.
Proof.
  intros sb mpts rpts. cbv zeta. unfold assemble. destruct rpts as [|p rpts]; [repeat split|].
  destruct (macaque_v_model _) as [[residuals rmin] rmax]. cbn [sg_model_type_id sg_start_time
    sg_end_time sg_timestamps sg_residuals]. repeat split.
  unfold residuals_length. destruct (residuals ++ [Z.of_nat (length (p :: rpts))]) eqn:E.
  - destruct residuals; discriminate.
  - rewrite <- E, last_last. apply Nat2Z.id.
Qed.

Lemma built_covers : forall s pts, built s pts -> valid_timestamps (map fst pts) -> covers s pts.
Proof.
  intros s pts Hb Hv. pose proof (built_not_empty s pts Hb) as Hne. unfold covers, model_values.
  destruct Hb as [sb i mpts rpts Hf Hr|pts _].
  - pose proof (fitted_id _ _ _ Hf) as Hid.
    assert (H8 : (8 <= length mpts)%nat) by (destruct Hf as [H _]; exact H).
    destruct (assemble_fields sb mpts rpts) as (F1 & F2 & F3 & F4 & F5). cbv zeta in *.
    rewrite F1, F2, F3, F4, F5, timestamps_round_trip, app_length by exact Hv.
    repeat split; try lia; try assumption.
  - unfold assemble_residuals. destruct (macaque_v_model _) as [[values min] max].
    cbn [sg_model_type_id sg_start_time sg_end_time sg_timestamps sg_residuals].
    rewrite timestamps_round_trip by exact Hv. cbn [residuals_length].
    assert (1 <= length pts)%nat by (destruct pts; [congruence|cbn; lia]).
    repeat split; try assumption; try lia.
    + intros [H0|H0]; discriminate.
    + right. right. auto.
Qed.

Lemma forall2_left : forall (A B : Type) (R : A -> B -> Prop) (S : B -> Prop) la lb,
  (forall a b, R a b -> S b) -> Forall2 R la lb -> Forall S lb.
Proof. intros A B R S la lb H HF. induction HF; constructor; eauto. Qed.

Lemma forall2_weaken : forall (A B : Type) (R R' : A -> B -> Prop) (S : B -> Prop) la lb,
  (forall a b, R a b -> S b -> R' a b) -> Forall2 R la lb -> Forall S lb -> Forall2 R' la lb.
Proof.
  intros A B R R' S la lb H HF HS. induction HF; [constructor|].
  apply Forall_cons_iff in HS. destruct HS. constructor; auto.
Qed.

Lemma compress_covers : forall ts vs, valid_timestamps ts -> length ts = length vs ->
  exists segments parts, compress_univariate P eb ts vs = Ok segments
    /\ concat parts = combine ts vs /\ Forall2 covers segments parts.
Proof.
  intros ts vs Hv Hl. destruct (compress_built ts vs ltac:(apply Hv) Hl) as (segs & parts & E1 & E2 & E3).
  exists segs, parts. split; [exact E1|]. split; [exact E2|].
  eapply forall2_weaken; [|exact E3|].
  - intros a b Hb Hvb. exact (built_covers a b Hb Hvb).
  - eapply parts_valid; [|exact Hv|].
    + eapply forall2_left; [|exact E3]. apply built_not_empty.
    + rewrite E2. apply combine_map. exact Hl.
Qed.

End Segments.
