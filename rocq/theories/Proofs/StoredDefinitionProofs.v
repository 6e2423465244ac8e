(** Proofs that definitions of time series tables survive a restart and being sent to nodes. *)
From Coq Require Import ZArith Bool String List Lia Permutation Sorted Reals Lra.
From Flocq Require Import IEEE754.Binary.
From Verif Require Import Model.Base Model.Float Model.ErrorBound Model.Filters Model.Table
  Spec.ErrorBoundSpec Spec.TableSpec Proofs.FloatProofs Proofs.ErrorBoundProofs
  Proofs.TableProofs Proofs.DefinitionProofs.
Import ListNotations.
Open Scope nat_scope.
Open Scope list_scope.

(** Saving and loading an error bound. *)
Definition saved (b : error_bound) : f32 * bool :=
  match b with
  | Absolute e => (e, false)
  | Relative e => (e, true)
  | Lossless => (f32_zero, false)
  end.

Lemma zero_finite : finite32 f32_zero /\ R32 f32_zero = 0%R.
Proof. split; reflexivity. Qed.

Lemma positive_nonzero : forall e, finite32 e -> (0 < R32 e)%R -> f32_eq e f32_zero = false.
Proof.
  intros e Hf Hp. apply not_true_is_false. intros H.
  destruct zero_finite as (Z1 & Z2). apply (f32_eq_iff e f32_zero Hf Z1) in H.
  rewrite Z2 in H. lra.
Qed.

Lemma load_saved : forall b, valid_error_bound b ->
  (b = Lossless /\ f32_eq (fst (saved b)) f32_zero = true)
  \/ (f32_eq (fst (saved b)) f32_zero = false
      /\ (if snd (saved b) then try_new_relative (fst (saved b))
          else try_new_absolute (fst (saved b))) = Ok b).
Proof.
  intros [e|e|] H; cbn [saved fst snd].
  - right. split; [apply positive_nonzero; apply H|].
    apply (proj1 (try_new_valid (Absolute e) e)). split; [reflexivity|exact H].
  - right. split; [apply positive_nonzero; apply H|].
    apply (proj2 (try_new_valid (Relative e) e)). split; [reflexivity|exact H].
  - left. split; [reflexivity|].
    apply f32_eq_iff; [apply zero_finite|apply zero_finite|reflexivity].
Qed.

Definition bound_of (m : metadata) (name : string) : error_bound :=
  match index_of (schema m) name with
  | Some j => nth j (error_bounds m) Lossless
  | None => Lossless
  end.

Lemma index_of_lt : forall columns name i, index_of columns name = Some i -> i < length columns.
Proof.
  intros columns name i H. apply index_of_some in H. destruct H as (t & H).
  apply nth_error_Some. congruence.
Qed.

Lemma saved_bound_ok : forall m name, length (error_bounds m) = length (schema m) ->
  saved_bound m name = Ok (saved (bound_of m name)).
Proof.
  intros m name H. unfold saved_bound, bound_of.
  destruct (index_of (schema m) name) as [i|] eqn:E; [|reflexivity].
  apply index_of_lt in E.
  assert (L : i < length (error_bounds m)) by lia. apply nth_error_Some in L.
  destruct (nth_error (error_bounds m) i) as [b|] eqn:F; [|congruence].
  rewrite (nth_error_nth _ _ Lossless F). destruct b; reflexivity.
Qed.

Lemma bound_of_valid : forall m name, Forall valid_error_bound (error_bounds m) ->
  valid_error_bound (bound_of m name).
Proof.
  intros m name H. unfold bound_of. destruct (index_of (schema m) name) as [i|]; [|exact I].
  destruct (nth_in_or_default i (error_bounds m) Lossless) as [Hin|E].
  - rewrite Forall_forall in H. now apply H.
  - rewrite E. exact I.
Qed.

(** The rows that are saved. *)
Definition expr_at (ser : serializer) (m : metadata) (i : nat) : option (list Z) :=
  match nth_error (generated_columns m) i with
  | Some (Some g) => Some (to_bytes ser (generated_expr g))
  | _ => None
  end.

Lemma field_rows_exist : forall ser m columns k, length (error_bounds m) = length (schema m) ->
  exists rows, field_rows ser m k columns = Ok rows.
Proof.
  intros ser m columns k H. revert k.
  induction columns as [|(name, t) columns IH]; intros k; cbn [field_rows]; [now eexists|].
  destruct (arrow_type_eqb t Float32); [|apply IH].
  rewrite (saved_bound_ok m name H). cbn [bind]. destruct (saved (bound_of m name)) as (v, r).
  destruct (IH (S k)) as (rows & ->). cbn [bind]. now eexists.
Qed.

Lemma field_rows_table : forall ser m columns k rows, field_rows ser m k columns = Ok rows ->
  Forall (fun r => row_table r = table_name m) rows.
Proof.
  intros ser m columns. induction columns as [|(name, t) columns IH]; intros k rows;
    cbn [field_rows].
  - intros H. injection H as <-. constructor.
  - destruct (arrow_type_eqb t Float32); [|apply IH].
    destruct (saved_bound m name) as [(v, r)| |]; cbn [bind]; try discriminate.
    destruct (field_rows ser m (S k) columns) as [rs| |] eqn:E; cbn [bind]; try discriminate.
    intros H. injection H as <-. constructor; [reflexivity|]. eapply IH, E.
Qed.

Lemma set_at_middle : forall {A} (pre : list A) a post b,
  set_at (pre ++ a :: post) (length pre) b = Ok (pre ++ b :: post).
Proof.
  intros A pre. induction pre as [|c pre IH]; intros a post b; cbn [app length set_at]; [reflexivity|].
  now rewrite IH.
Qed.

Definition loaded_bound (m : metadata) (c : column) : error_bound :=
  if arrow_type_eqb (snd c) Float32 then bound_of m (fst c) else Lossless.

Lemma load_bounds_ok : forall ser m columns k rows pre,
  length (error_bounds m) = length (schema m) -> Forall valid_error_bound (error_bounds m) ->
  field_rows ser m k columns = Ok rows -> length pre = k ->
  load_error_bounds rows (pre ++ repeat Lossless (length columns))
  = Ok (pre ++ map (loaded_bound m) columns).
Proof.
  intros ser m columns. induction columns as [|(name, t) columns IH]; intros k rows pre Hl Hv;
    cbn [field_rows length repeat map].
  - intros H _. injection H as <-. reflexivity.
  - assert (Next : forall b rs, field_rows ser m (S k) columns = Ok rs -> length pre = k ->
              load_error_bounds rs (pre ++ b :: repeat Lossless (length columns))
              = Ok (pre ++ b :: map (loaded_bound m) columns)).
    { intros b rs E Hk. specialize (IH (S k) rs (pre ++ [b]) Hl Hv E).
      rewrite <- !app_assoc in IH. apply IH. rewrite app_length. cbn. lia. }
    unfold loaded_bound at 1. cbn [fst snd]. destruct (arrow_type_eqb t Float32).
    + rewrite (saved_bound_ok m name Hl). cbn [bind].
      destruct (saved (bound_of m name)) as (v, r) eqn:Es.
      destruct (field_rows ser m (S k) columns) as [rs| |] eqn:E; cbn [bind]; try discriminate.
      intros H Hk. injection H as <-. cbn [load_error_bounds row_error_bound row_relative row_index].
      destruct (load_saved (bound_of m name) (bound_of_valid m name Hv)) as [[E1 E2]|[E1 E2]];
        rewrite Es in *; cbn [fst snd] in *.
      * rewrite E2, E1. now apply Next.
      * rewrite E1, E2. cbn [bind]. rewrite <- Hk, set_at_middle. cbn [bind]. apply Next; [|exact Hk].
        reflexivity.
    + intros E Hk. now apply Next.
Qed.

(** The loaded error bounds are those of the stored columns. *)
Lemma without_map : forall {A B} (f : A -> B) gs l,
  without_generated gs (map f l) = map f (without_generated gs l).
Proof.
  intros A B f gs. induction gs as [|[g|] gs IH]; intros [|a l]; cbn; try reflexivity.
  - apply IH.
  - f_equal. apply IH.
Qed.

Lemma without_In : forall {A} gs (l : list A) a, In a (without_generated gs l) -> In a l.
Proof.
  intros A gs. induction gs as [|[g|] gs IH]; intros [|b l] a; cbn; try tauto.
  - intros H. right. now apply IH.
  - intros [H|H]; [now left|right; now apply IH].
Qed.
Lemma without_NoDup : forall {A} gs (l : list A), NoDup l -> NoDup (without_generated gs l).
Proof.
  intros A gs. induction gs as [|[g|] gs IH]; intros [|a l] H; cbn; try constructor;
    inversion H; subst; auto.
  intros Hin. apply without_In in Hin. contradiction.
Qed.

Lemma without_length : forall {A B} gs (l : list A) (k : list B), length l = length k ->
  length (without_generated gs l) = length (without_generated gs k).
Proof.
  intros A B gs. induction gs as [|[g|] gs IH]; intros [|a l] [|b k] H; try discriminate; cbn;
    try reflexivity; injection H as H; auto.
Qed.

Lemma map_pointwise : forall {A B} (f : A -> B) l k, length l = length k ->
  (forall i a b, nth_error l i = Some a -> nth_error k i = Some b -> f a = b) -> map f l = k.
Proof.
  intros A B f l. induction l as [|a l IH]; intros [|b k] H P; try discriminate; [reflexivity|].
  cbn. f_equal; [now apply (P 0)|]. apply IH; [now injection H|]. intros i. apply (P (S i)).
Qed.

(** What is known about an accepted definition. *)
Lemma accepted_facts : forall name columns bounds generated m,
  try_new name columns bounds generated = Ok m ->
  length generated = length columns /\ length bounds = length columns
  /\ schema m = without_generated generated columns
  /\ error_bounds m = without_generated generated bounds
  /\ length (error_bounds m) = length (schema m)
  /\ table_name m = name /\ query_schema m = columns /\ generated_columns m = generated.
Proof.
  intros name columns bounds generated m H.
  destruct (try_new_ok name columns bounds generated m H) as (W & D & N & _ & S & B).
  assert (L1 : length generated = length columns) by apply W.
  assert (L2 : length bounds = length columns) by apply W.
  split; [exact L1|]. split; [exact L2|]. split; [exact S|]. split; [exact B|].
  split; [rewrite S, B; now apply without_length|]. split; [exact N|].
  split; apply D.
Qed.

Lemma bound_of_stored : forall m k name t b, NoDup (map fst (schema m)) ->
  nth_error (schema m) k = Some (name, t) -> nth_error (error_bounds m) k = Some b ->
  bound_of m name = b.
Proof.
  intros m k name t b ND Hk Hb. unfold bound_of. rewrite (index_of_nth _ name t k ND Hk).
  now apply nth_error_nth.
Qed.

(** Loading the generated columns. *)
Lemma load_generated_ok : forall ser ord m columns all k rows pre gs,
  faithful ser -> enumerates ord -> NoDup (map fst all) ->
  field_rows ser m k columns = Ok rows -> length pre = k ->
  length gs = length columns ->
  (forall i, i < length gs -> nth_error (generated_columns m) (k + i) = nth_error gs i) ->
  (forall i g, nth_error gs i = Some (Some g) -> type_at columns i Float32 /\ sources_match all g) ->
  exists hs, load_generated ser ord all rows (pre ++ repeat None (length columns)) = Ok (pre ++ hs)
    /\ Forall2 same_generated gs hs /\ length hs = length columns.
Proof.
  intros ser ord m columns all. induction columns as [|(name, t) columns IH];
    intros k rows pre gs Hf Ho ND E Hk Hl Hg Hs; cbn [field_rows length repeat] in *.
  - injection E as <-. exists []. rewrite app_nil_r. destruct gs; [|discriminate].
    split; [reflexivity|]. split; [constructor|reflexivity].
  - destruct gs as [|g gs]; [discriminate|]. injection Hl as Hl.
    assert (G0 : nth_error (generated_columns m) k = Some g)
      by (specialize (Hg 0); rewrite Nat.add_0_r in Hg; apply Hg; cbn; lia).
    assert (Next : forall h rs, same_generated g h -> field_rows ser m (S k) columns = Ok rs ->
      exists hs, load_generated ser ord all rs (pre ++ h :: repeat None (length columns))
                 = Ok (pre ++ hs)
        /\ Forall2 same_generated (g :: gs) hs /\ length hs = S (length columns)).
    { intros h rs Hh Ers.
      destruct (IH (S k) rs (pre ++ [h]) gs Hf Ho ND Ers) as (hs & E1 & E2 & E3).
      - rewrite app_length. cbn. lia.
      - exact Hl.
      - intros i Hi. specialize (Hg (S i)). cbn [nth_error length] in Hg.
        rewrite <- Hg by lia. f_equal. lia.
      - intros i g' Hi. destruct (Hs (S i) g' Hi) as (T & M). split; [exact T|exact M].
      - exists (h :: hs). rewrite <- !app_assoc in E1. split; [exact E1|].
        split; [now constructor|]. cbn. now rewrite E3. }
    destruct (arrow_type_eqb t Float32) eqn:Et.
    + destruct (saved_bound m name) as [(v, r)| |]; cbn [bind] in E; try discriminate.
      destruct (field_rows ser m (S k) columns) as [rs| |] eqn:Ers; cbn [bind] in E; try discriminate.
      injection E as <-. rewrite G0. cbn [load_generated row_expr row_index].
      destruct g as [g|].
      * destruct (Hf (generated_expr g)) as (F1 & F2).
        destruct (to_bytes ser (generated_expr g)) as [|z zs] eqn:Eb; [congruence|].
        rewrite F1. cbn [bind].
        destruct (Hs 0 g eq_refl) as (_ & M).
        destruct (try_from_expr_again ord all g Ho ND M) as (h & Eh & Sh & _).
        rewrite Eh. cbn [bind]. rewrite <- Hk, set_at_middle. cbn [bind].
        now apply Next.
      * now apply Next.
    + destruct g as [g|].
      * destruct (Hs 0 g eq_refl) as ((n & T) & _). cbn in T. injection T as -> ->.
        discriminate.
      * now apply Next.
Qed.

Lemma rows_for_fresh : forall name s rows,
  Forall (fun r => row_table r <> name) (rows_of_fields s) ->
  Forall (fun r => row_table r = name) rows ->
  filter (fun r => String.eqb (row_table r) name) (rows_of_fields s ++ rows) = rows.
Proof.
  intros name s rows H1 H2. rewrite filter_app.
  assert (E1 : filter (fun r => String.eqb (row_table r) name) (rows_of_fields s) = []).
  { induction H1 as [|r l H _ IH]; [reflexivity|]. cbn. now rewrite (proj2 (String.eqb_neq _ _) H). }
  rewrite E1. cbn [app]. induction H2 as [|r l H _ IH]; [reflexivity|].
  cbn. rewrite H, String.eqb_refl. now rewrite IH.
Qed.

(** A definition that is the same as a valid one and is accepted is valid. *)
Lemma sources_match_same : forall columns g h, same_generated (Some g) (Some h) ->
  sources_match columns g -> sources_match columns h.
Proof.
  intros columns g h (E & P) (H1 & H2 & H3). unfold sources_match. rewrite <- E.
  split; [now apply (Permutation_NoDup P)|]. split; [|exact H3].
  intros i. rewrite <- H2. split; apply Permutation_in; [now symmetry|exact P].
Qed.

Lemma valid_same : forall m n bounds, valid_table m -> same_definition m n ->
  try_new (table_name n) (query_schema n) bounds (generated_columns n) = Ok n -> valid_table n.
Proof.
  intros m n bounds [Hacc ND HV HB HG] [S1 S2 S3 S4 S5 _] Hn. constructor.
  - now exists bounds.
  - now rewrite <- S2.
  - now rewrite <- S4.
  - rewrite <- S3, <- S4. exact HB.
  - intros i h Hi. rewrite <- S2. clear - S5 Hi HG.
    assert (X : exists g, nth_error (generated_columns m) i = Some (Some g)
                  /\ same_generated (Some g) (Some h)).
    { clear HG. revert i Hi.
      induction S5 as [|g' h' gs hs H1 H2 IH]; intros [|i] Hi; cbn [nth_error] in *;
        try discriminate.
      - injection Hi as ->. destruct g' as [g'|]; [|destruct H1]. now exists g'.
      - now apply IH. }
    destruct X as (g & Hg & Sg). destruct (HG i g Hg) as (T & M).
    split; [exact T|]. now apply (sources_match_same _ g).
Qed.

(** Restart: a saved definition is loaded again and other tables are not affected. *)
Lemma restart_ok : forall ser ord m s, faithful ser -> enumerates ord -> valid_table m ->
  Forall (fun r => row_table r <> table_name m) (rows_of_fields s) ->
  exists s', save ser m s = Ok s'
    /\ (exists n, load_row ser ord s' (table_name m, query_schema m) = Ok n
         /\ same_definition m n /\ valid_table n)
    /\ (forall name columns, name <> table_name m ->
          load_row ser ord s' (name, columns) = load_row ser ord s (name, columns)).
Proof.
  intros ser ord m s Hf Ho Hvalid Hfresh. pose proof Hvalid as [Hacc ND HV HB HG].
  destruct Hacc as (bounds & Hacc).
  destruct (accepted_facts _ _ _ _ _ Hacc) as (L1 & L2 & S1 & B1 & L3 & _).
  destruct (field_rows_exist ser m (query_schema m) 0 L3) as (rows & Er).
  pose proof (field_rows_table ser m _ _ _ Er) as Ht.
  unfold save. rewrite Er. cbn [bind]. eexists. split; [reflexivity|]. split.
  - unfold load_row, rows_for. cbn [rows_of_fields].
    rewrite (rows_for_fresh _ s rows Hfresh Ht).
    pose proof (load_bounds_ok ser m (query_schema m) 0 rows [] L3 HV Er eq_refl) as El.
    cbn [app] in El. rewrite El. cbn [bind].
    rewrite (proj2 (to_dfschema_ok (query_schema m) _) (conj eq_refl ND)). cbn [bind].
    destruct (load_generated_ok ser ord m (query_schema m) (query_schema m) 0 rows []
                (generated_columns m) Hf Ho ND Er eq_refl L1) as (hs & E1 & E2 & E3).
    { reflexivity. }
    { exact HG. }
    cbn [app] in E1. rewrite E1. cbn [bind].
    destruct (try_new_same _ _ bounds (map (loaded_bound m) (query_schema m)) _ hs m Hacc E2)
      as (n & En & Sn & Gn).
    + apply map_length.
    + rewrite without_map, <- S1, <- B1. apply map_pointwise; [now symmetry|].
      intros k (name, t) b Hk Hb. unfold loaded_bound. cbn [fst snd].
      assert (NDs : NoDup (map fst (schema m))).
      { rewrite S1, <- without_map. now apply without_NoDup. }
      destruct (arrow_type_eqb t Float32) eqn:Et.
      * now apply (bound_of_stored m k name t).
      * destruct b as [e|e|]; [| |reflexivity].
        -- destruct (HB k (Absolute e) Hb) as (n & Hn); [discriminate|].
           rewrite Hk in Hn. injection Hn as _ ->. discriminate.
        -- destruct (HB k (Relative e) Hb) as (n & Hn); [discriminate|].
           rewrite Hk in Hn. injection Hn as _ ->. discriminate.
    + exists n. split; [exact En|]. split; [exact Sn|].
      destruct (accepted_facts _ _ _ _ _ En) as (_ & _ & _ & _ & _ & N1 & N2 & N3).
      apply (valid_same m n (map (loaded_bound m) (query_schema m)) Hvalid Sn).
      now rewrite N1, N2, N3.
  - intros name columns N. unfold load_row.
    assert (E : rows_for name (Store (table_rows s ++ [(table_name m, query_schema m)])
                                 (rows_of_fields s ++ rows)) = rows_for name s).
    { unfold rows_for. cbn [rows_of_fields]. rewrite filter_app.
      assert (E1 : filter (fun r => String.eqb (row_table r) name) rows = []).
      { clear - Ht N. induction Ht as [|r l H _ IH]; [reflexivity|]. cbn.
        rewrite H, (proj2 (String.eqb_neq _ _) (not_eq_sym N)). exact IH. }
      now rewrite E1, app_nil_r. }
    now rewrite E.
Qed.

(** All tables are loaded again after one has been created. *)
Lemma load_rows_app : forall ser ord s a b,
  load_rows ser ord s (a ++ b)
  = let? x := load_rows ser ord s a in let? y := load_rows ser ord s b in Ok (x ++ y).
Proof.
  intros ser ord s a b. induction a as [|r a IH]; cbn [load_rows app bind].
  - destruct (load_rows ser ord s b); reflexivity.
  - destruct (load_row ser ord s r); cbn [bind]; try reflexivity. rewrite IH.
    destruct (load_rows ser ord s a); cbn [bind]; try reflexivity.
    destruct (load_rows ser ord s b); reflexivity.
Qed.

Lemma restart_all : forall ser ord m s ms, faithful ser -> enumerates ord -> valid_table m ->
  Forall (fun r => row_table r <> table_name m) (rows_of_fields s) ->
  Forall (fun r => fst r <> table_name m) (table_rows s) ->
  load_all ser ord s = Ok ms ->
  exists s' n, save ser m s = Ok s' /\ load_all ser ord s' = Ok (ms ++ [n]) /\ same_definition m n
    /\ valid_table n.
Proof.
  intros ser ord m s ms Hf Ho Hv H1 H2 Hl.
  destruct (restart_ok ser ord m s Hf Ho Hv H1) as (s' & Es & (n & En & Sn & Vn) & Hother).
  exists s', n. split; [exact Es|]. split; [|split; [exact Sn|exact Vn]].
  assert (Et : table_rows s' = table_rows s ++ [(table_name m, query_schema m)]).
  { unfold save in Es. destruct (field_rows ser m 0 (query_schema m)); cbn [bind] in Es;
      try discriminate. injection Es as <-. reflexivity. }
  unfold load_all in *. rewrite Et, load_rows_app.
  assert (Ea : load_rows ser ord s' (table_rows s) = load_rows ser ord s (table_rows s)).
  { clear Hl Et. revert H2. generalize (table_rows s). intros l H2.
    induction H2 as [|(name, columns) l H _ IH]; [reflexivity|]. cbn [load_rows].
    cbn [fst] in H. rewrite (Hother name columns H), IH. reflexivity. }
  rewrite Ea, Hl. cbn [bind load_rows]. rewrite En. reflexivity.
Qed.

(** Transport. *)
Definition encoded (b : error_bound) : Z * f32 :=
  match b with
  | Absolute e => (0%Z, e)
  | Relative e => (1%Z, e)
  | Lossless => (2%Z, f32_zero)
  end.

Lemma encode_bounds_ok : forall m columns, length (error_bounds m) = length (schema m) ->
  encode_error_bounds m columns = Ok (map (fun c => encoded (bound_of m (fst c))) columns).
Proof.
  intros m columns H. induction columns as [|(name, t) columns IH]; cbn [encode_error_bounds map fst];
    [reflexivity|].
  rewrite IH. unfold bound_of. destruct (index_of (schema m) name) as [i|] eqn:E; [|reflexivity].
  apply index_of_lt in E. assert (L : i < length (error_bounds m)) by lia. apply nth_error_Some in L.
  destruct (nth_error (error_bounds m) i) as [b|] eqn:F; [|congruence].
  rewrite (nth_error_nth _ _ Lossless F). destruct b; reflexivity.
Qed.

Lemma decode_bounds_ok : forall bounds,
  decode_error_bounds (map encoded bounds) = Ok bounds.
Proof.
  induction bounds as [|b bounds IH]; [reflexivity|]. cbn [map decode_error_bounds].
  destruct b as [e|e|]; cbn [encoded bind]; rewrite IH; reflexivity.
Qed.

Lemma decode_exprs_ok : forall ser ord columns gs, faithful ser -> enumerates ord ->
  NoDup (map fst columns) ->
  (forall i g, nth_error gs i = Some (Some g) -> sources_match columns g) ->
  exists hs, decode_exprs ser ord columns
      (map (fun g => match g with Some g => to_bytes ser (generated_expr g) | None => [] end) gs)
    = Ok hs /\ Forall2 same_generated gs hs.
Proof.
  intros ser ord columns gs Hf Ho ND. induction gs as [|g gs IH]; intros Hg.
  - exists []. split; [reflexivity|constructor].
  - destruct IH as (hs & E & S); [intros i; apply (Hg (Datatypes.S i))|].
    cbn [map decode_exprs]. rewrite E. destruct g as [g|].
    + destruct (Hf (generated_expr g)) as (F1 & F2).
      destruct (to_bytes ser (generated_expr g)) as [|z zs] eqn:Eb; [congruence|].
      rewrite F1. cbn [bind].
      destruct (try_from_expr_again ord columns g Ho ND (Hg 0 g eq_refl)) as (h & Eh & Sh & _).
      rewrite Eh. cbn [bind]. exists (Some h :: hs). split; [reflexivity|now constructor].
    + cbn [bind]. exists (None :: hs). split; [reflexivity|]. constructor; [exact I|exact S].
Qed.

Lemma transport_ok : forall ser ord m, faithful ser -> enumerates ord -> valid_table m ->
  exists msg n, encode ser m = Ok msg /\ decode ser ord msg = Ok n
    /\ same_definition m n /\ valid_table n.
Proof.
  intros ser ord m Hf Ho Hvalid. pose proof Hvalid as [Hacc ND HV HB HG]. destruct Hacc as (bounds & Hacc).
  destruct (accepted_facts _ _ _ _ _ Hacc) as (L1 & L2 & S1 & B1 & L3 & _).
  unfold encode. rewrite (encode_bounds_ok m (query_schema m) L3). cbn [bind].
  match goal with |- exists msg n, Ok ?x = Ok msg /\ _ => exists x end.
  unfold decode. cbn [message_bounds message_schema message_exprs message_name].
  rewrite <- (map_map (fun c => bound_of m (fst c)) encoded), decode_bounds_ok. cbn [bind].
  rewrite (proj2 (to_dfschema_ok (query_schema m) _) (conj eq_refl ND)). cbn [bind].
  destruct (decode_exprs_ok ser ord (query_schema m) (generated_columns m) Hf Ho ND)
    as (hs & E & S); [intros i g Hi; now apply (HG i g)|].
  rewrite E. cbn [bind].
  destruct (try_new_same _ _ bounds (map (fun c => bound_of m (fst c)) (query_schema m)) _ hs m Hacc S)
    as (n & En & Sn & Gn).
  - apply map_length.
  - rewrite (without_map (A := column)), <- S1, <- B1. apply map_pointwise; [now symmetry|].
    intros k (name, t) b Hk Hb. cbn [fst].
    assert (NDs : NoDup (map fst (schema m))).
    { rewrite S1, <- without_map. now apply without_NoDup. }
    now apply (bound_of_stored m k name t).
  - exists n. split; [reflexivity|]. split; [exact En|]. split; [exact Sn|].
    destruct (accepted_facts _ _ _ _ _ En) as (_ & _ & _ & _ & _ & N1 & N2 & N3).
    apply (valid_same m n (map (fun c => bound_of m (fst c)) (query_schema m)) Hvalid Sn).
    now rewrite N1, N2, N3.
Qed.

Lemma save_names : forall ser m s s', save ser m s = Ok s' ->
  table_rows s' = table_rows s ++ [(table_name m, query_schema m)]
  /\ exists rows, rows_of_fields s' = rows_of_fields s ++ rows
       /\ Forall (fun r => row_table r = table_name m) rows.
Proof.
  intros ser m s s' H. unfold save in H.
  destruct (field_rows ser m 0 (query_schema m)) as [rows| |] eqn:E; cbn [bind] in H;
    try discriminate.
  injection H as <-. split; [reflexivity|]. exists rows. split; [reflexivity|].
  now apply (field_rows_table ser m _ _ _ E).
Qed.

Lemma restart_many : forall ser ord ms s loaded, faithful ser -> enumerates ord ->
  Forall valid_table ms -> NoDup (map table_name ms) ->
  Forall (fun r => ~ In (row_table r) (map table_name ms)) (rows_of_fields s) ->
  Forall (fun r => ~ In (fst r) (map table_name ms)) (table_rows s) ->
  load_all ser ord s = Ok loaded ->
  exists s' ns, save_all ser ms s = Ok s' /\ load_all ser ord s' = Ok (loaded ++ ns)
    /\ Forall2 same_definition ms ns /\ Forall valid_table ns.
Proof.
  intros ser ord ms. induction ms as [|m ms IH]; intros s loaded Hf Ho Hv Hn H1 H2 Hl.
  - exists s, []. rewrite app_nil_r. cbn. auto.
  - inversion Hv as [|? ? Hm Hms]; subst. cbn [map] in Hn. inversion Hn as [|? ? Nm Nms]; subst.
    destruct (restart_all ser ord m s loaded Hf Ho Hm) as (s1 & n & E1 & E2 & E3 & E4).
    + revert H1. apply Forall_impl. intros r H E. apply H. left. now symmetry.
    + revert H2. apply Forall_impl. intros r H E. apply H. left. now symmetry.
    + exact Hl.
    + destruct (save_names ser m s s1 E1) as (T & rows & R & F).
      destruct (IH s1 (loaded ++ [n]) Hf Ho Hms Nms) as (s' & ns & G1 & G2 & G3 & G4).
      * rewrite R. apply Forall_app. split.
        -- revert H1. apply Forall_impl. intros r H E. apply H. now right.
        -- revert F. apply Forall_impl. intros r -> . exact Nm.
      * rewrite T. apply Forall_app. split.
        -- revert H2. apply Forall_impl. intros r H E. apply H. now right.
        -- constructor; [exact Nm|constructor].
      * exact E2.
      * exists s', (n :: ns). cbn [save_all]. rewrite E1. cbn [bind].
        split; [exact G1|]. split; [rewrite G2, <- app_assoc; reflexivity|].
        split; [now constructor|now constructor].
Qed.

Lemma restart_everything : forall ser ord ms, faithful ser -> enumerates ord ->
  Forall valid_table ms -> NoDup (map table_name ms) ->
  exists s ns, save_all ser ms (Store [] []) = Ok s /\ load_all ser ord s = Ok ns
    /\ Forall2 same_definition ms ns /\ Forall valid_table ns.
Proof.
  intros ser ord ms Hf Ho Hv Hn.
  apply (restart_many ser ord ms (Store [] []) [] Hf Ho Hv Hn); [constructor|constructor|reflexivity].
Qed.

(** A received definition is well formed, has unique names and the right sources. *)
Lemma decode_exprs_sources : forall ser ord columns exprs gs, enumerates ord ->
  NoDup (map fst columns) -> decode_exprs ser ord columns exprs = Ok gs ->
  forall i g, nth_error gs i = Some (Some g) -> sources_match columns g.
Proof.
  intros ser ord columns exprs. induction exprs as [|bytes exprs IH]; intros gs Ho ND;
    cbn [decode_exprs].
  - intros H. injection H as <-. intros [|i] g Hi; discriminate.
  - destruct (match bytes with
              | [] => Ok None
              | _ => let? e := from_bytes ser bytes in
                     let? g := try_from_expr ord columns e in Ok (Some g)
              end) as [g0| |] eqn:E0; cbn [bind]; try discriminate.
    destruct (decode_exprs ser ord columns exprs) as [gs'| |] eqn:E; cbn [bind]; try discriminate.
    intros H. injection H as <-. intros [|i] g Hi; cbn [nth_error] in Hi.
    + injection Hi as ->. destruct bytes as [|z zs]; [discriminate|].
      destruct (from_bytes ser (z :: zs)) as [e| |]; cbn [bind] in E0; try discriminate.
      destruct (try_from_expr ord columns e) as [h| |] eqn:Eh; cbn [bind] in E0; try discriminate.
      injection E0 as <-. now apply (try_from_expr_ok ord columns e h).
    + now apply (IH gs' Ho ND eq_refl i).
Qed.

Lemma decode_well_formed : forall ser ord msg m, enumerates ord -> decode ser ord msg = Ok m ->
  (exists bounds, well_formed (query_schema m) bounds (generated_columns m)
     /\ describes (query_schema m) bounds (generated_columns m) m)
  /\ NoDup (map fst (query_schema m))
  /\ (forall i g, nth_error (generated_columns m) i = Some (Some g) ->
        sources_match (query_schema m) g).
Proof.
  intros ser ord msg m Ho. unfold decode.
  destruct (decode_error_bounds (message_bounds msg)) as [bounds| |]; cbn [bind]; try discriminate.
  destruct (to_dfschema (message_schema msg)) as [columns| |] eqn:Ed; cbn [bind]; try discriminate.
  apply to_dfschema_ok in Ed. destruct Ed as (-> & ND).
  destruct (decode_exprs ser ord (message_schema msg) (message_exprs msg)) as [gs| |] eqn:Eg;
    cbn [bind]; try discriminate.
  intros H. destruct (try_new_ok _ _ _ _ _ H) as (W & D & _).
  destruct (accepted_facts _ _ _ _ _ H) as (_ & _ & _ & _ & _ & _ & Q & G).
  rewrite Q, G. split; [exists bounds; split; assumption|]. split; [exact ND|].
  now apply (decode_exprs_sources ser ord (message_schema msg) (message_exprs msg)).
Qed.

(** Tables created by SQL are valid. *)
Lemma extract_bounds_ok : forall defs bounds, extract_error_bounds defs = Ok bounds ->
  Forall2 (fun d b => valid_error_bound b /\ b = asked_bound (snd d)) defs bounds.
Proof.
  induction defs as [|(name, kind) defs IH]; intros bounds; cbn [extract_error_bounds].
  - intros H. injection H as <-. constructor.
  - destruct (match kind with
              | Field_column bound is_relative =>
                  if has_error_bound bound then
                    if is_relative then try_new_relative bound else try_new_absolute bound
                  else Ok Lossless
              | _ => Ok Lossless
              end) as [b| |] eqn:E; cbn [bind]; try discriminate.
    destruct (extract_error_bounds defs) as [bs| |]; cbn [bind]; try discriminate.
    intros H. injection H as <-. constructor; [|now apply IH]. cbn [snd].
    destruct kind as [|e r|e|]; try (injection E as <-; split; [exact I|reflexivity]).
    cbn [asked_bound]. unfold has_error_bound in E. destruct (f32_lt f32_zero e).
    + destruct r.
      * apply (proj2 (try_new_valid b e)) in E. tauto.
      * apply (proj1 (try_new_valid b e)) in E. tauto.
    + injection E as <-. split; [exact I|reflexivity].
Qed.

Lemma extract_exprs_ok : forall ord columns defs gs, enumerates ord -> NoDup (map fst columns) ->
  extract_exprs ord columns defs = Ok gs ->
  Forall2 (fun d g => match g with
                      | Some g => snd d = Generated_column (generated_expr g)
                                  /\ sources_match columns g
                      | None => forall e, snd d <> Generated_column e
                      end) defs gs.
Proof.
  intros ord columns defs. induction defs as [|(name, kind) defs IH]; intros gs Ho ND;
    cbn [extract_exprs].
  - intros H. injection H as <-. constructor.
  - destruct (match kind with
              | Generated_column e => let? g := try_from_expr ord columns e in Ok (Some g)
              | _ => Ok None
              end) as [g| |] eqn:E; cbn [bind]; try discriminate.
    destruct (extract_exprs ord columns defs) as [gs'| |]; cbn [bind]; try discriminate.
    intros H. injection H as <-. constructor; [|now apply IH]. cbn [snd].
    destruct kind as [|e r|e|]; try (injection E as <-; intros e'; discriminate).
    destruct (try_from_expr ord columns e) as [h| |] eqn:Eh; cbn [bind] in E; try discriminate.
    injection E as <-. destruct (try_from_expr_ok ord columns e h Ho ND Eh) as (-> & M).
    split; [reflexivity|exact M].
Qed.

Lemma Forall2_nth_r : forall {A B} (P : A -> B -> Prop) l k, Forall2 P l k ->
  forall i b, nth_error k i = Some b -> exists a, nth_error l i = Some a /\ P a b.
Proof.
  intros A B P l k H. induction H as [|a b l k H1 H2 IH]; intros [|i] c Hc; cbn in *;
    try discriminate.
  - injection Hc as <-. now exists a.
  - now apply IH.
Qed.

Lemma created_valid : forall ord name defs m, enumerates ord ->
  create_table ord name defs = Ok m -> valid_table m
  /\ table_name m = name /\ created_as defs m.
Proof.
  intros ord name defs m Ho. unfold create_table.
  destruct (extract_error_bounds defs) as [bounds| |] eqn:Eb; cbn [bind]; try discriminate.
  destruct (to_dfschema (query_schema_of defs)) as [columns| |] eqn:Ed; cbn [bind]; try discriminate.
  apply to_dfschema_ok in Ed. destruct Ed as (-> & ND).
  destruct (extract_exprs ord (query_schema_of defs) defs) as [gs| |] eqn:Eg; cbn [bind];
    try discriminate.
  intros H. destruct (accepted_facts _ _ _ _ _ H) as (L1 & L2 & S1 & B1 & L3 & N & Q & G).
  apply extract_bounds_ok in Eb. apply (extract_exprs_ok ord _ _ _ Ho ND) in Eg.
  assert (HG : forall i g, nth_error gs i = Some (Some g) ->
            (exists n, nth_error defs i = Some (n, Generated_column (generated_expr g)))
            /\ sources_match (query_schema_of defs) g).
  { intros i g Hi. destruct (Forall2_nth_r _ _ _ Eg i _ Hi) as ((n, k) & Hd & Hk & M).
    cbn [snd] in Hk. subst k. split; [now exists n|exact M]. }
  split; [|split; [exact N|]].
  - constructor.
    + exists bounds. now rewrite N, Q, G.
    + now rewrite Q.
    + rewrite B1. apply Forall_forall. intros b Hb. apply without_In in Hb.
      destruct (Forall2_In_r _ _ _ Eb b Hb) as (d & _ & Hv & _). exact Hv.
    + intros k b Hk Hb. rewrite S1. rewrite B1 in Hk.
      assert (X : exists i, nth_error (positions gs 0) k = Some i /\ nth_error bounds i = Some b).
      { pose proof (without_generated_positions gs bounds [] (eq_trans L1 (eq_sym L2))) as E.
        assert (F : nth_error (map Some (without_generated gs bounds)) k
                    = nth_error (map (nth_error bounds) (positions gs 0)) k)
          by (rewrite E; reflexivity).
        rewrite !nth_error_map, Hk in F. cbn [option_map] in F.
        destruct (nth_error (positions gs 0) k) as [i|]; cbn [option_map] in F; [|discriminate].
        exists i. split; [reflexivity|congruence]. }
      destruct X as (i & Hi & Hbi).
      destruct (Forall2_nth_r _ _ _ Eb i b Hbi) as ((n, kind) & Hd & _ & Hf).
      cbn [snd] in Hf.
      exists n. apply (stored_nth (query_schema_of defs) gs k L1). exists i. split; [exact Hi|].
      unfold query_schema_of. rewrite (map_nth_error _ _ _ Hd). cbn [fst snd].
      destruct kind; cbn [asked_bound] in Hf; congruence.
    + rewrite Q, G. intros i g Hi. destruct (HG i g Hi) as ((n & Hd) & M). split; [|exact M].
      exists n. unfold query_schema_of. now rewrite (map_nth_error _ _ _ Hd).
  - split; [|split].
    + rewrite Q. reflexivity.
    + rewrite G. clear - Eg. set (c := query_schema_of defs) in Eg. clearbody c.
      induction Eg as [|d g ds hs H1 H2 IH]; [reflexivity|].
      cbn [map]. f_equal; [|exact IH]. destruct g as [g|]; cbn [option_map].
      * destruct H1 as (E & _). now rewrite E.
      * destruct (snd d); try reflexivity. destruct (H1 e eq_refl).
    + rewrite Q, G.
      replace (map (fun d => asked_bound (snd d)) defs) with bounds.
      * now apply (try_new_ok name).
      * clear - Eb. induction Eb as [|d b ds bs (_ & H1) H2 IH]; [reflexivity|].
        cbn [map]. now rewrite <- IH, H1.
Qed.
