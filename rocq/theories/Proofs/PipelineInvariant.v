(** The pipeline of Model/Pipeline.v holds what it has received: invariants and their preservation. *)
From Coq Require Import ZArith List Bool String Permutation Sorted Lia.
From Verif Require Import Model.Pipeline Spec.PipelineSpec Proofs.PipelineMaps.
Import ListNotations.
Open Scope Z_scope.

(** * Sums over data points *)

Lemma sum_flat_map {A B} (v : B -> Z) (f : A -> list B) l :
  sum v (flat_map f l) = sum (fun a => sum v (f a)) l.
Proof.
  induction l as [|a l IH]; cbn [flat_map sum]; [reflexivity|]. rewrite sum_app, IH. reflexivity.
Qed.

Definition in_message {A : Type} (w : A -> Z) (m : message A) : Z :=
  match m with Data a => w a | _ => 0 end.

Lemma sum_data {A} (v : item -> Z) (f : A -> list item) c :
  sum v (data f c) = sum (in_message (fun a => sum v (f a))) c.
Proof.
  unfold data. rewrite sum_flat_map. apply sum_ext_in. intros [a| |] _; reflexivity.
Qed.

Lemma sum_in {A} (w : A -> Z) l a : (forall b, 0 <= w b) -> In a l -> w a <= sum w l.
Proof.
  intros Hw. induction l as [|b l IH]; intros H; [contradiction|]. cbn [sum].
  pose proof (sum_nonneg w l (fun b _ => Hw b)). pose proof (Hw b).
  destruct H as [->|H]; [lia|]. pose proof (IH H). lia.
Qed.

Lemma sum_items_perm v m tags p q :
  Permutation p q -> sum v (items m tags p) = sum v (items m tags q).
Proof. intros H. apply sum_perm. apply Permutation_map. exact H. Qed.

Definition amount (v : item -> Z) (s : state) : Z := sum v (saved s) + sum v (live s).

Lemma amount_eq v s :
  amount v s =
    sum (fun k => sum v (commit_items k)) (s_table s)
    + sum v (held_by_client (s_client s))
    + sum (in_message (fun b => sum v (batch_items b))) (s_ingested s)
    + sum v (held_by_ingestion (s_ingestion s))
    + sum (fun e => sum v (memory_items (snd e))) (s_memory s)
    + sum (fun e => sum v (disk_items (s_files s) (snd e))) (s_disk s)
    + sum (in_message (fun u => sum v (uncompressed_items (s_files s) u))) (s_uncompressed s)
    + sum v (held_by_compressor (s_compressor s))
    + sum (in_message (fun g => sum v (segment_items g))) (s_compressed s)
    + sum (fun e => sum v (buffer_items (snd e))) (s_buffers s)
    + sum v (held_by_writer (s_writer s)).
Proof.
  unfold amount, saved, live. rewrite !sum_app, !sum_data, !sum_flat_map. lia.
Qed.

(** * Well-formed states *)

Definition hand (c : client) : list memory_buffer :=
  match c with Spilling _ b => [b] | _ => [] end.

Definition message_refs (m : message uncompressed_buffer) : list disk_buffer :=
  match m with Data (OnDisk d) => [d] | _ => [] end.

(** All on-disk buffers. *)
Definition refs (s : state) : list disk_buffer :=
  map snd (s_disk s) ++ flat_map message_refs (s_uncompressed s).

Section Invariant.
  Variable hash : string -> Z.
  Variable capacity : nat.
  Variable sort : list point -> list point.
  Variable logging : bool.
  Hypothesis Hsort : sorts_points sort.

  Notation tag_hash := (tag_hash hash).
  Notation step := (step hash capacity sort logging).
  Notation spill := (spill capacity sort).
  Notation spilled := (spilled sort).
  Notation spilled_path := (spilled_path sort).
  Notation spilled_file := (spilled_file sort).
  Notation reserve := (reserve capacity sort).

  Definition memory_ok (h : Z) (b : memory_buffer) : Prop :=
    m_hash b = h /\ h = tag_hash (t_name (m_meta b)) (m_tags b) /\ m_points b <> [].

  Definition disk_ok (files : list (path * file)) (d : disk_buffer) : Prop :=
    exists f p ps,
      get path_eqb (d_path d) files = Some f
      /\ f_points f = p :: ps
      /\ d_hash d = tag_hash (t_name (d_meta d)) (f_tags f)
      /\ d_path d = (t_name (d_meta d), d_hash d, p_time p).

  Definition is_lowering (c : client) : Prop :=
    match c with Lowering _ | Spilling _ _ => True | _ => False end.

  Record wf (s : state) : Prop := {
    wf_keys : NoDup (map fst (s_memory s) ++ map fst (s_disk s) ++ map m_hash (hand (s_client s)));
    wf_memory : forall h b, In (h, b) (s_memory s) -> memory_ok h b;
    wf_hand : forall b, In b (hand (s_client s)) -> memory_ok (m_hash b) b;
    wf_disk : forall h d, In (h, d) (s_disk s) -> d_hash d = h;
    wf_refs : forall d, In d (refs s) -> disk_ok (s_files s) d;
    wf_paths : NoDup (map d_path (refs s));
    wf_full : forall h b rest, s_ingestion s = Full h b rest -> In h (map fst (s_memory s));
    wf_lowering : is_lowering (s_client s) -> forall h b rest, s_ingestion s <> Full h b rest;
    wf_buffers : map fst (s_buffers s) = s_queue s;
    wf_queue : NoDup (s_queue s) }.

  (** Nothing is held more often than it was received. *)
  Definition below (s : state) : Prop :=
    forall v, (forall x, 0 <= v x) -> amount v s <= sum v (received s).

  Definition item_key (x : item) : metadata * list string * Z :=
    (i_meta x, i_tags x, p_time (i_point x)).

  Definition item_dec (x y : item) : {x = y} + {x <> y}.
  Proof. repeat decide equality. Defined.

  Lemma key_dec (x y : metadata * list string * Z) : {x = y} + {x <> y}.
  Proof. repeat decide equality. Qed.

  Definition indicator (x y : item) : Z := if item_dec x y then 1 else 0.
  Definition key_indicator k (y : item) : Z := if key_dec k (item_key y) then 1 else 0.

  Lemma indicator_nonneg x y : 0 <= indicator x y.
  Proof. unfold indicator. destruct (item_dec x y); lia. Qed.

  Lemma key_indicator_nonneg k y : 0 <= key_indicator k y.
  Proof. unfold key_indicator. destruct (key_dec k (item_key y)); lia. Qed.

  Lemma sum_indicator_pos x l : 0 < sum (indicator x) l -> In x l.
  Proof.
    induction l as [|y l IH]; cbn [sum]; [lia|]. unfold indicator at 1.
    destruct (item_dec x y) as [->|Hne]; intros H; [left; reflexivity|].
    right. apply IH. lia.
  Qed.

  Lemma in_sum_indicator x l : In x l -> 0 < sum (indicator x) l.
  Proof.
    intros H. pose proof (sum_in (indicator x) l x (indicator_nonneg x) H) as H2.
    unfold indicator at 1 in H2. destruct (item_dec x x) as [_|Hne]; [lia|contradiction].
  Qed.

  Lemma sum_key_one k l : NoDup (map item_key l) -> sum (key_indicator k) l <= 1.
  Proof.
    induction l as [|y l IH]; cbn [map sum]; intros H; [lia|].
    apply NoDup_cons_iff in H. destruct H as [Hy H]. unfold key_indicator at 1.
    destruct (key_dec k (item_key y)) as [->|Hne].
    - enough (sum (key_indicator (item_key y)) l = 0) by lia.
      apply sum_zero. intros z Hz. unfold key_indicator.
      destruct (key_dec (item_key y) (item_key z)) as [E|_]; [|reflexivity].
      exfalso. apply Hy. rewrite E. apply in_map. exact Hz.
    - pose proof (IH H). lia.
  Qed.

  (** The parts of [amount_eq] are not negative. *)
  Lemma live_received s x : below s -> In x (live s) -> In x (received s).
  Proof.
    intros Hb H. apply sum_indicator_pos.
    pose proof (Hb (indicator x) (indicator_nonneg x)) as H2. unfold amount in H2.
    pose proof (in_sum_indicator x _ H).
    pose proof (sum_nonneg (indicator x) (saved s) (fun y _ => indicator_nonneg x y)). lia.
  Qed.

  Definition owned (b : memory_buffer) (s : state) : Prop :=
    (exists h, In (h, b) (s_memory s)) \/ In b (hand (s_client s)).

  Lemma sum_pos v (l : list item) : (forall x, 0 <= v x) -> 0 <= sum v l.
  Proof. intros Hv. apply sum_nonneg. intros x _. apply Hv. Qed.

  Lemma parts_nonneg v s : (forall x, 0 <= v x) ->
    0 <= sum (fun k => sum v (commit_items k)) (s_table s)
    /\ 0 <= sum v (held_by_client (s_client s))
    /\ 0 <= sum (in_message (fun b => sum v (batch_items b))) (s_ingested s)
    /\ 0 <= sum v (held_by_ingestion (s_ingestion s))
    /\ 0 <= sum (fun e => sum v (memory_items (snd e))) (s_memory s)
    /\ 0 <= sum (fun e => sum v (disk_items (s_files s) (snd e))) (s_disk s)
    /\ 0 <= sum (in_message (fun u => sum v (uncompressed_items (s_files s) u))) (s_uncompressed s)
    /\ 0 <= sum v (held_by_compressor (s_compressor s))
    /\ 0 <= sum (in_message (fun g => sum v (segment_items g))) (s_compressed s)
    /\ 0 <= sum (fun e => sum v (buffer_items (snd e))) (s_buffers s)
    /\ 0 <= sum v (held_by_writer (s_writer s)).
  Proof.
    intros Hv.
    assert (Hm : forall A (w : A -> Z) m, (forall a, 0 <= w a) -> 0 <= in_message w m).
    { intros A w [a| |] Hw; cbn [in_message]; [apply Hw|lia|lia]. }
    repeat split;
      first [apply sum_pos; exact Hv
            |apply sum_nonneg; intros a _; apply sum_pos; exact Hv
            |apply sum_nonneg; intros a _; apply Hm; intros c; apply sum_pos; exact Hv].
  Qed.

  Lemma parts_below v s b d :
    (forall x, 0 <= v x) -> owned b s -> In d (refs s) ->
    sum v (memory_items b) + sum v (disk_items (s_files s) d) <= amount v s.
  Proof.
    intros Hv Hb Hd. rewrite amount_eq. pose proof (parts_nonneg v s Hv) as H.
    assert (H1 : sum v (memory_items b)
      <= sum v (held_by_client (s_client s)) + sum (fun e => sum v (memory_items (snd e))) (s_memory s)).
    { destruct Hb as [[h Hb]|Hb].
      - pose proof (sum_in (fun e => sum v (memory_items (snd e))) (s_memory s) (h, b)
          (fun e => sum_pos v _ Hv) Hb) as H2. cbn [snd] in H2. lia.
      - destruct (s_client s); cbn [hand] in Hb; try contradiction.
        destruct Hb as [->|[]]. cbn [held_by_client] in *. lia. }
    assert (H2 : sum v (disk_items (s_files s) d)
      <= sum (fun e => sum v (disk_items (s_files s) (snd e))) (s_disk s)
         + sum (in_message (fun u => sum v (uncompressed_items (s_files s) u))) (s_uncompressed s)).
    { unfold refs in Hd. apply in_app_iff in Hd. destruct Hd as [Hd|Hd].
      - apply in_map_iff in Hd. destruct Hd as [[h d'] [E Hd]]. cbn [snd] in E. subst d'.
        pose proof (sum_in (fun e => sum v (disk_items (s_files s) (snd e))) (s_disk s) (h, d)
          (fun e => sum_pos v _ Hv) Hd) as H2. cbn [snd] in H2. lia.
      - apply in_flat_map in Hd. destruct Hd as [m [Hm Hd]].
        destruct m as [[b'|d']| |]; cbn [message_refs In] in Hd; try contradiction.
        destruct Hd as [->|[]].
        pose proof (sum_in (in_message (fun u => sum v (uncompressed_items (s_files s) u)))
          (s_uncompressed s) (Data (OnDisk d))) as H2.
        cbn [in_message uncompressed_items] in H2.
        enough (sum v (disk_items (s_files s) d)
          <= sum (in_message (fun u => sum v (uncompressed_items (s_files s) u))) (s_uncompressed s)) by lia.
        apply H2; [|exact Hm]. intros [u| |]; cbn [in_message]; [apply sum_pos; exact Hv|lia|lia]. }
    lia.
  Qed.

  Lemma sort_head b : m_points b <> [] ->
    exists p ps, f_points (spilled_file b) = p :: ps /\ In p (m_points b)
      /\ spilled_path b = (t_name (m_meta b), m_hash b, p_time p).
  Proof.
    intros H. unfold Pipeline.spilled_path, Pipeline.spilled_file. cbn [f_points].
    destruct (Hsort (m_points b)) as [Hp _].
    destruct (sort (m_points b)) as [|p ps] eqn:E.
    - apply Permutation_nil in Hp. contradiction.
    - exists p, ps. split; [reflexivity|]. split; [|reflexivity].
      apply (Permutation_in p Hp). left. reflexivity.
  Qed.

  Lemma owned_ok s b : wf s -> owned b s -> memory_ok (m_hash b) b.
  Proof.
    intros Hw [[h H]|H].
    - pose proof (wf_memory s Hw h b H) as H2. destruct H2 as [E H2]. subst h. split; [reflexivity|exact H2].
    - apply (wf_hand s Hw b H).
  Qed.

  Lemma owned_live s b x : owned b s -> In x (memory_items b) -> In x (live s).
  Proof.
    intros Hb Hx. unfold live. rewrite !in_app_iff. destruct Hb as [[h Hb]|Hb].
    - right. right. right. left. apply in_flat_map. exists (h, b). split; [exact Hb|exact Hx].
    - left. destruct (s_client s); cbn [hand] in Hb; try contradiction.
      destruct Hb as [->|[]]. exact Hx.
  Qed.

  Lemma ref_live s d x : In d (refs s) -> In x (disk_items (s_files s) d) -> In x (live s).
  Proof.
    intros Hd Hx. unfold live. rewrite !in_app_iff. unfold refs in Hd.
    apply in_app_iff in Hd. destruct Hd as [Hd|Hd].
    - apply in_map_iff in Hd. destruct Hd as [[h d'] [E Hd]]. cbn [snd] in E. subst d'.
      do 4 right. left. apply in_flat_map. exists (h, d). split; [exact Hd|exact Hx].
    - apply in_flat_map in Hd. destruct Hd as [m [Hm Hd]].
      destruct m as [[b'|d']| |]; cbn [message_refs In] in Hd; try contradiction.
      destruct Hd as [->|[]]. do 5 right. left. unfold data. apply in_flat_map.
      exists (Data (OnDisk d)). split; [exact Hm|exact Hx].
  Qed.

  (** A spilled buffer gets a file of its own. *)
  Lemma fresh_path s b d :
    wf s -> below s -> collision_free hash (received s) -> distinct_times (received s) ->
    owned b s -> In d (refs s) -> d_path d <> spilled_path b.
  Proof.
    intros Hw Hb Hc Ht Ho Hd E.
    pose proof (owned_ok s b Hw Ho) as [_ [Hh Hne]].
    destruct (sort_head b Hne) as [p [ps [Hf [Hp Hpath]]]].
    destruct (wf_refs s Hw d Hd) as [f [q [qs [Hget [Hq [Hdh Hdp]]]]]].
    rewrite Hdp, Hpath in E. injection E as E1 E2 E3.
    set (x := {| i_meta := m_meta b; i_tags := m_tags b; i_point := p |}).
    set (y := {| i_meta := d_meta d; i_tags := f_tags f; i_point := q |}).
    assert (Hx : In x (memory_items b)) by (apply in_map_iff; exists p; split; [reflexivity|exact Hp]).
    assert (Hy : In y (disk_items (s_files s) d)).
    { unfold disk_items. rewrite Hget. apply in_map_iff. exists q. split; [reflexivity|].
      rewrite Hq. left. reflexivity. }
    pose proof (live_received s x Hb (owned_live s b x Ho Hx)) as Hxr.
    pose proof (live_received s y Hb (ref_live s d y Hd Hy)) as Hyr.
    destruct (Hc x y Hxr Hyr) as [Em Et].
    { change (hash (series_name x)) with (tag_hash (t_name (m_meta b)) (m_tags b)).
      change (hash (series_name y)) with (tag_hash (t_name (d_meta d)) (f_tags f)).
      rewrite <- Hh, <- Hdh. symmetry. exact E2. }
    assert (Ek : item_key x = item_key y).
    { unfold item_key. rewrite Em, Et. subst x y. cbn [i_point]. rewrite E3. reflexivity. }
    set (v := key_indicator (item_key x)).
    assert (Hv : forall z, 0 <= v z) by (intros z; apply key_indicator_nonneg).
    pose proof (parts_below v s b d Hv Ho Hd) as H1.
    pose proof (Hb v Hv) as H2.
    pose proof (sum_key_one (item_key x) (received s) Ht) as H3. fold v in H3.
    assert (H4 : v x <= sum v (memory_items b)) by (apply sum_in; assumption).
    assert (H5 : v y <= sum v (disk_items (s_files s) d)) by (apply sum_in; assumption).
    assert (Evx : v x = 1).
    { unfold v, key_indicator. destruct (key_dec (item_key x) (item_key x)) as [_|C]; [reflexivity|].
      contradiction C. reflexivity. }
    assert (Evy : v y = 1).
    { unfold v, key_indicator. destruct (key_dec (item_key x) (item_key y)) as [_|C]; [reflexivity|].
      contradiction. }
    lia.
  Qed.

  (** A row and the buffer its hash leads to belong to the same series. *)
  Lemma same_series s m tags p m' tags' p' :
    below s -> collision_free hash (received s) ->
    In {| i_meta := m; i_tags := tags; i_point := p |} (live s) ->
    In {| i_meta := m'; i_tags := tags'; i_point := p' |} (live s) ->
    tag_hash (t_name m) tags = tag_hash (t_name m') tags' -> m = m' /\ tags = tags'.
  Proof.
    intros Hb Hc Hx Hy E.
    apply (Hc _ _ (live_received s _ Hb Hx) (live_received s _ Hb Hy) E).
  Qed.
End Invariant.
