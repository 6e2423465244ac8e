(** Lemmas about writing to a Delta table. *)
From Coq Require Import ZArith List Bool Lia.
From Verif.Model Require Import Base TableWriter.
From Verif.Spec Require Import TableWriterSpec.
Import ListNotations.
Open Scope Z_scope.

Lemma file_rows_app : forall n f g,
  file_rows n (f ++ g) = match file_rows n f with Some r => Some r | None => file_rows n g end.
Proof.
  intros n f g. induction f as [|[k r] f IH]; [reflexivity|]. cbn [app file_rows].
  destruct (k =? n); [reflexivity | exact IH].
Qed.

Lemma file_rows_in : forall n f r, file_rows n f = Some r -> In (n, r) f.
Proof.
  intros n f. induction f as [|[k y] f IH]; intros r H; cbn [file_rows] in H; [discriminate|].
  destruct (k =? n) eqn:E.
  - apply Z.eqb_eq in E. subst k. injection H as ->. left. reflexivity.
  - right. exact (IH r H).
Qed.

Lemma rows_of_app_names : forall a b f,
  rows_of (a ++ b) f
  = match rows_of a f, rows_of b f with Some x, Some y => Some (x ++ y) | _, _ => None end.
Proof.
  intros a b f. induction a as [|n a IH]; cbn [app rows_of].
  - destruct (rows_of b f); reflexivity.
  - rewrite IH. destruct (file_rows n f) as [r|]; [|reflexivity].
    destruct (rows_of a f) as [x|]; [|reflexivity].
    destruct (rows_of b f) as [y|]; [rewrite app_assoc; reflexivity | reflexivity].
Qed.

Lemma rows_of_more_files : forall names f g r, rows_of names f = Some r -> rows_of names (f ++ g) = Some r.
Proof.
  intros names f g. induction names as [|n names IH]; intros r H; cbn [rows_of] in *; [exact H|].
  rewrite file_rows_app. destruct (file_rows n f) as [x|]; [|discriminate].
  destruct (rows_of names f) as [y|]; [|discriminate].
  rewrite (IH y eq_refl). exact H.
Qed.

Lemma NoDup_app_single : forall (l : list Z) x, NoDup l -> ~ In x l -> NoDup (l ++ [x]).
Proof.
  intros l x H N. induction H as [|y l Hy H IH]; cbn [app]; [repeat constructor; auto|].
  constructor.
  - rewrite in_app_iff. intros [Hi|[<-|[]]]; [exact (Hy Hi)|]. apply N. left. reflexivity.
  - apply IH. intros Hi. apply N. right. exact Hi.
Qed.

(** ** Invariant of a writer: the files it has written follow those of [w0] and hold, with the
    buffer, the rows written so far. *)
Record writing (w0 : world) (rows : list Z) (d : writer) (w : world) : Prop := {
  wr_files : exists g, w_files w = w_files w0 ++ g /\ map fst g = d_added d
             /\ concat (map snd g) ++ d_buffer d = rows
             /\ (forall f, In f g -> w_next w0 <= fst f < w_next w) /\ NoDup (map fst g);
  wr_log : w_log w = w_log w0;
  wr_next : w_next w0 <= w_next w }.

Lemma writing_start : forall w, writing w [] (Writer [] []) w.
Proof.
  intros w. constructor; [|reflexivity|lia]. exists []. rewrite app_nil_r.
  split; [reflexivity|]. split; [reflexivity|]. split; [reflexivity|].
  split; [intros f [] | constructor].
Qed.

Lemma writing_flush : forall w0 rows n d w d' w',
  writing w0 rows d w -> flush_file n d w = (d', w') -> writing w0 rows d' w'.
Proof.
  intros w0 rows n d w d' w' [(g & E1 & E2 & E3 & E4 & E5) EL EN] H. unfold flush_file in H.
  destruct (firstn n (d_buffer d)) as [|x r] eqn:E; injection H as <- <-.
  - constructor; [|exact EL|exact EN]. exists g. auto.
  - constructor; cbn [w_files w_log w_next d_added d_buffer]; [|exact EL|lia].
    exists (g ++ [(w_next w, x :: r)]). rewrite E1, app_assoc. split; [reflexivity|].
    rewrite !map_app, concat_app, E2. cbn [map concat fst snd]. split; [reflexivity|].
    split; [|split].
    + rewrite app_nil_r, <- app_assoc, <- E, firstn_skipn. exact E3.
    + intros f Hf. apply in_app_or in Hf. destruct Hf as [Hf|[<-|[]]].
      * specialize (E4 f Hf). lia.
      * cbn [fst]. lia.
    + rewrite <- E2. apply NoDup_app_single; [exact E5|].
      intros Hin. apply in_map_iff in Hin. destruct Hin as (f & Ef & Hf).
      specialize (E4 f Hf). lia.
Qed.

Lemma writing_flushes : forall ns w0 rows d w d' w',
  writing w0 rows d w -> flush_files ns d w = (d', w') -> writing w0 rows d' w'.
Proof.
  intros ns. induction ns as [|n ns IH]; intros w0 rows d w d' w' W H; cbn [flush_files] in H.
  - injection H as <- <-. exact W.
  - destruct (flush_file n d w) as [d1 w1] eqn:E.
    exact (IH _ _ _ _ _ _ (writing_flush _ _ _ _ _ _ _ W E) H).
Qed.

Lemma writing_more : forall w0 rows d w more,
  writing w0 rows d w -> writing w0 (rows ++ more) (Writer (d_buffer d ++ more) (d_added d)) w.
Proof.
  intros w0 rows d w more [(g & E1 & E2 & E3 & E4 & E5) EL EN].
  constructor; [|exact EL|exact EN]. exists g. cbn [d_added d_buffer].
  split; [exact E1|]. split; [exact E2|]. split; [|split; assumption].
  rewrite app_assoc, E3. reflexivity.
Qed.

Lemma write_all_writing : forall batches cs w0 rows d w ok d' w',
  writing w0 rows d w -> write_all cs batches d w = (ok, d', w') ->
  exists rows', writing w0 rows' d' w' /\ (ok = true -> rows' = rows ++ concat batches).
Proof.
  intros batches. induction batches as [|b batches IH]; intros cs w0 rows d w ok d' w' W H;
    cbn [write_all] in H.
  - injection H as <- <- <-. exists rows. split; [exact W|]. intros _. symmetry. apply app_nil_r.
  - unfold write in H. cbv zeta in H. set (c := hd (0%nat, true) cs) in *.
    destruct (snd c) eqn:Ec.
    + destruct (flush_file (fst c) (Writer (d_buffer d ++ b) (d_added d)) w) as [d1 w1] eqn:E.
      destruct (IH _ _ _ _ _ _ _ _
                  (writing_flush _ _ _ _ _ _ _ (writing_more _ _ _ _ b W) E) H) as (r & Wr & Hr).
      exists r. split; [exact Wr|]. intros Hok. rewrite (Hr Hok). cbn [concat].
      rewrite app_assoc. reflexivity.
    + destruct (flush_file (fst c) d w) as [d1 w1] eqn:E. injection H as <- <- <-.
      exists rows. split; [exact (writing_flush _ _ _ _ _ _ _ W E) | discriminate].
Qed.

(** ** Closing and deleting *)

Lemma firstn_length_all : forall (l : list Z), firstn (length l) l = l.
Proof. intros l. apply firstn_all. Qed.

Lemma close_writing : forall c w0 rows d w added w',
  writing w0 rows d w -> close c d w = (added, w') ->
  (added = None -> c_close_ok c = false)
  /\ exists d', writing w0 rows d' w'
      /\ match added with Some names => names = d_added d' /\ d_buffer d' = [] | None => True end.
Proof.
  intros c w0 rows d w added w' W H. unfold close in H.
  destruct (flush_files (c_chunks c) d w) as [d1 w1] eqn:E1.
  pose proof (writing_flushes _ _ _ _ _ _ _ W E1) as W1.
  destruct (c_close_ok c).
  - destruct (flush_file (length (d_buffer d1)) d1 w1) as [d2 w2] eqn:E2.
    injection H as <- <-. split; [discriminate|]. exists d2.
    split; [exact (writing_flush _ _ _ _ _ _ _ W1 E2)|]. split; [reflexivity|].
    unfold flush_file in E2. rewrite firstn_length_all in E2.
    destruct (d_buffer d1) as [|x r] eqn:Eb; injection E2 as <- <-; [exact Eb|].
    cbn [d_buffer]. apply skipn_all.
  - injection H as <- <-. split; [reflexivity|]. exists d1. split; [exact W1 | exact I].
Qed.

Lemma filter_all : forall (A : Type) (f : A -> bool) l,
  (forall x, In x l -> f x = true) -> filter f l = l.
Proof.
  intros A f l H. induction l as [|x l IH]; [reflexivity|]. cbn [filter].
  rewrite (H x (or_introl eq_refl)). rewrite IH; [reflexivity|].
  intros y Hy. apply H. right. exact Hy.
Qed.

(** Deleting the files [g] that follow [f] leaves [f] when all deletions succeed, and [f] with
    some of them otherwise. *)
Lemma delete_files_spec : forall g oks f log next ok w',
  NoDup (map fst g) -> (forall x y, In x f -> In y g -> fst x <> fst y) ->
  delete_files oks (map fst g) (World (f ++ g) log next) = (ok, w') ->
  w_log w' = log /\ (exists g', w_files w' = f ++ g' /\ incl g' g)
  /\ (ok = true -> w_files w' = f)
  /\ ((forall b, In b oks -> b = true) -> ok = true).
Proof.
  intros g. induction g as [|[n r] g IH]; intros oks f log next ok w' Hd Hn H;
    cbn [map delete_files fst] in H.
  - injection H as <- <-. cbn [w_log w_files]. rewrite app_nil_r.
    split; [reflexivity|]. split; [exists []; rewrite app_nil_r; split; [reflexivity|apply incl_refl]|].
    split; reflexivity.
  - cbn [map fst] in Hd. apply NoDup_cons_iff in Hd. destruct Hd as [Hd1 Hd2].
    destruct (hd true oks) eqn:Eo.
    + cbn [w_files w_log w_next] in H. rewrite filter_app in H. cbn [filter fst] in H.
      rewrite Z.eqb_refl in H. cbn [negb] in H.
      rewrite (filter_all _ _ f) in H.
      2:{ intros x Hx. apply negb_true_iff, Z.eqb_neq.
          exact (Hn x (n, r) Hx (or_introl eq_refl)). }
      rewrite (filter_all _ _ g) in H.
      2:{ intros x Hx. apply negb_true_iff, Z.eqb_neq. intros E. apply Hd1.
          rewrite <- E. apply in_map. exact Hx. }
      destruct (IH (tl oks) f log next ok w' Hd2) as (A1 & (g' & A2 & A3) & A4 & A5).
      * intros x y Hx Hy. apply Hn; [exact Hx | right; exact Hy].
      * exact H.
      * split; [exact A1|]. split.
        { exists g'. split; [exact A2|]. intros x Hx. right. exact (A3 x Hx). }
        split; [exact A4|]. intros Hb. apply A5. intros b Hb'. apply Hb.
        destruct oks; [contradiction|]. right. exact Hb'.
    + injection H as <- <-. cbn [w_log w_files]. split; [reflexivity|].
      split; [eexists; split; [reflexivity | apply incl_refl]|]. split; [discriminate|].
      intros Hb. destruct oks as [|b oks]; [discriminate|]. cbn [hd] in Eo. subst b.
      apply Hb. left. reflexivity.
Qed.

Lemma rows_of_new : forall f g,
  (forall x y, In x f -> In y g -> fst x <> fst y) -> NoDup (map fst g) ->
  rows_of (map fst g) (f ++ g) = Some (concat (map snd g)).
Proof.
  intros f g Hn Hd.
  assert (Hf : forall n r, In (n, r) g -> file_rows n (f ++ g) = Some r).
  { intros n r Hg. rewrite file_rows_app.
    destruct (file_rows n f) as [r'|] eqn:E.
    - apply file_rows_in in E. destruct (Hn (n, r') (n, r) E Hg eq_refl).
    - clear -Hg Hd. induction g as [|[k y] g IH]; [contradiction|]. cbn [file_rows].
      cbn [map fst] in Hd. apply NoDup_cons_iff in Hd. destruct Hd as [H1 H2].
      destruct Hg as [E|Hg].
      + injection E as -> ->. rewrite Z.eqb_refl. reflexivity.
      + destruct (k =? n) eqn:E; [|exact (IH H2 Hg)].
        apply Z.eqb_eq in E. subst k. exfalso. apply H1.
        change n with (fst (n, r)). apply in_map. exact Hg. }
  assert (Hs : forall h, (forall x, In x h -> In x g) ->
            rows_of (map fst h) (f ++ g) = Some (concat (map snd h))).
  { intros h. induction h as [|[n r] h IH]; intros Hh; [reflexivity|].
    cbn [map rows_of fst snd concat]. rewrite (Hf n r (Hh _ (or_introl eq_refl))).
    rewrite IH; [reflexivity|]. intros x Hx. apply Hh. right. exact Hx. }
  apply Hs. auto.
Qed.

(** ** Results *)

Lemma written_files : forall w0 rows d w,
  fresh_names w0 -> writing w0 rows d w -> d_buffer d = [] ->
  exists g, w_files w = w_files w0 ++ g /\ map fst g = d_added d /\ concat (map snd g) = rows
    /\ NoDup (map fst g) /\ (forall x y, In x (w_files w0) -> In y g -> fst x <> fst y).
Proof.
  intros w0 rows d w Hf [(g & E1 & E2 & E3 & E4 & E5) EL EN] Hb. exists g.
  rewrite Hb, app_nil_r in E3. split; [exact E1|]. split; [exact E2|]. split; [exact E3|].
  split; [exact E5|]. intros x y Hx Hy. specialize (Hf x Hx). specialize (E4 y Hy). lia.
Qed.

(** How a write ends: nothing is committed and some new files may be left, or everything is
    committed. *)
Lemma write_cases : forall c batches ids w ok w',
  fresh_names w -> c_commit c <> Reported_failed ->
  write_all_and_commit c batches ids w = (ok, w') ->
  (ok = false /\ w_log w' = w_log w /\ (exists g, w_files w' = w_files w ++ g)
   /\ (c_close_ok c = true -> (forall b, In b (c_deletes c) -> b = true) ->
       w_files w' = w_files w))
  \/ (ok = c_load_ok c /\ exists g, w_files w' = w_files w ++ g
      /\ w_log w' = w_log w ++ [(map fst g, ids)] /\ concat (map snd g) = concat batches
      /\ NoDup (map fst g) /\ (forall x y, In x (w_files w) -> In y g -> fst x <> fst y)).
Proof.
  intros c batches ids w ok w' Hf Hc H. unfold write_all_and_commit in H.
  destruct (write_all (c_writes c) batches (Writer [] []) w) as [[wok d] w1] eqn:E1.
  destruct (write_all_writing _ _ _ _ _ _ _ _ _ (writing_start w) E1) as (rows & W1 & Hrows).
  destruct wok.
  - (* all batches are written *)
    specialize (Hrows eq_refl). cbn [app] in Hrows. subst rows.
    unfold commit in H. destruct (close c d w1) as [added w2] eqn:E2.
    destruct (close_writing _ _ _ _ _ _ _ W1 E2) as (Hno & d2 & W2 & Hadd).
    destruct added as [names|].
    + destruct Hadd as [-> Hbuf].
      destruct (written_files _ _ _ _ Hf W2 Hbuf) as (g & G1 & G2 & G3 & G4 & G5).
      assert (Hdel : forall ok' w3, delete_files (c_deletes c) (d_added d2) w2 = (ok', w3) ->
                w_log w3 = w_log w /\ (exists g, w_files w3 = w_files w ++ g)
                /\ (c_close_ok c = true -> (forall b, In b (c_deletes c) -> b = true) ->
                    w_files w3 = w_files w)).
      { intros ok' w3 E3. rewrite <- G2 in E3.
        destruct w2 as [files log next]. cbn [w_files w_log] in *. rewrite G1 in E3.
        destruct (delete_files_spec _ _ _ _ _ _ _ G4 G5 E3) as (A1 & (g' & A2 & _) & A4 & A5).
        split; [rewrite A1; exact (wr_log _ _ _ _ W2)|]. split; [exists g'; exact A2|].
        intros _ Hb. exact (A4 (A5 Hb)). }
      destruct (c_snapshot_ok c).
      * destruct (c_commit c) eqn:Ec.
        -- injection H as <- <-. right. split; [reflexivity|]. exists g.
           cbn [w_files w_log]. split; [exact G1|]. split; [|split; [exact G3 | split; assumption]].
           rewrite (wr_log _ _ _ _ W2), G2. reflexivity.
        -- destruct (delete_files (c_deletes c) (d_added d2) w2) as [ok' w3] eqn:E3.
           injection H as <- <-. left. split; [reflexivity|]. exact (Hdel ok' w3 eq_refl).
        -- contradiction.
      * destruct (delete_files (c_deletes c) (d_added d2) w2) as [ok' w3] eqn:E3.
        injection H as <- <-. left. split; [reflexivity|]. exact (Hdel ok' w3 eq_refl).
    + injection H as <- <-. left. split; [reflexivity|].
      destruct W2 as [(g & G1 & _) EL _]. split; [exact EL|]. split; [exists g; exact G1|].
      intros Hok. rewrite (Hno eq_refl) in Hok. discriminate.
  - (* a write failed *)
    injection H as <- <-. left. split; [reflexivity|]. unfold rollback.
    destruct (close c d w1) as [added w2] eqn:E2.
    destruct (close_writing _ _ _ _ _ _ _ W1 E2) as (Hno & d2 & W2 & Hadd).
    destruct added as [names|].
    + destruct Hadd as [-> Hbuf].
      destruct (written_files _ _ _ _ Hf W2 Hbuf) as (g & G1 & G2 & G3 & G4 & G5).
      destruct (delete_files (c_deletes c) (d_added d2) w2) as [ok' w3] eqn:E3. cbn [snd].
      rewrite <- G2 in E3.
      destruct w2 as [files log next]. cbn [w_files w_log] in *. rewrite G1 in E3.
      destruct (delete_files_spec _ _ _ _ _ _ _ G4 G5 E3) as (A1 & (g' & A2 & _) & A4 & A5).
      split; [rewrite A1; exact (wr_log _ _ _ _ W2)|]. split; [exists g'; exact A2|].
      intros _ Hb. exact (A4 (A5 Hb)).
    + destruct W2 as [(g & G1 & _) EL _]. split; [exact EL|]. split; [exists g; exact G1|].
      intros Hok. rewrite (Hno eq_refl) in Hok. discriminate.
Qed.

Theorem all_or_nothing : forall c batches ids w ok w' rows,
  fresh_names w -> visible w = Some rows -> c_commit c <> Reported_failed ->
  write_all_and_commit c batches ids w = (ok, w') ->
  (visible w' = Some rows /\ visible_ids w' = visible_ids w /\ ok = false)
  \/ (visible w' = Some (rows ++ concat batches) /\ visible_ids w' = visible_ids w ++ [ids]
      /\ ok = c_load_ok c).
Proof.
  intros c batches ids w ok w' rows Hf Hv Hc H. unfold visible, visible_ids in *.
  destruct (write_cases c batches ids w ok w' Hf Hc H)
    as [(-> & EL & (g & EF) & _)|(-> & g & EF & EL & Hg & Hd & Hn)].
  - left. rewrite EL, EF. split; [|split; reflexivity].
    apply rows_of_more_files. exact Hv.
  - right. rewrite EL, EF, !map_app, concat_app, rows_of_app_names. cbn [map concat fst snd].
    rewrite app_nil_r, (rows_of_more_files _ _ g _ Hv), (rows_of_new _ _ Hn Hd), Hg.
    split; [reflexivity|]. split; reflexivity.
Qed.

Theorem nothing_left : forall c batches ids w w',
  fresh_names w -> c_commit c <> Reported_failed -> c_load_ok c = true ->
  c_close_ok c = true -> (forall b, In b (c_deletes c) -> b = true) ->
  write_all_and_commit c batches ids w = (false, w') ->
  w_files w' = w_files w /\ w_log w' = w_log w.
Proof.
  intros c batches ids w w' Hf Hc Hl Hclose Hdel H.
  destruct (write_cases c batches ids w false w' Hf Hc H)
    as [(_ & EL & _ & EF)|(E & _)].
  - split; [exact (EF Hclose Hdel) | exact EL].
  - rewrite Hl in E. discriminate.
Qed.

(** ** Cases *)

Lemma close_leaves_files :
  exists c batches w',
    c_commit c = Committed /\ c_load_ok c = true /\ (forall b, In b (c_deletes c) -> b = true)
    /\ write_all_and_commit c batches [] (World [] [] 0) = (false, w') /\ w_files w' <> [].
Proof.
  exists (Choices [(2, true)]%nat [] false true Committed true []), [[1; 2]; [3]],
    (World [(0, [1; 2])] [] 1).
  split; [reflexivity|]. split; [reflexivity|]. split; [intros b []|].
  split; [reflexivity | discriminate].
Qed.

Lemma load_reports_error :
  exists c batches w',
    c_close_ok c = true /\ c_commit c = Committed
    /\ write_all_and_commit c batches [7] (World [] [] 0) = (false, w')
    /\ visible w' = Some (concat batches) /\ concat batches <> [].
Proof.
  exists (Choices [] [] true true Committed false []), [[1; 2]; [3]],
    (World [(0, [1; 2; 3])] [([0], [7])] 1).
  split; [reflexivity|]. split; [reflexivity|]. split; [reflexivity|].
  split; [reflexivity | discriminate].
Qed.

Lemma reported_failed_breaks :
  exists c batches w rows w',
    fresh_names w /\ visible w = Some rows /\ c_close_ok c = true
    /\ write_all_and_commit c batches [] w = (false, w') /\ visible w' = None.
Proof.
  exists (Choices [] [] true true Reported_failed true []), [[1; 2]], (World [(0, [9])] [([0], [])] 1),
    [9], (World [(0, [9])] [([0], []); ([1], [])] 2).
  split; [intros f [<-|[]]; reflexivity|]. split; [reflexivity|]. split; [reflexivity|].
  split; reflexivity.
Qed.

Lemma write_example :
  let w := World [(0, [9])] [([0], [])] 1 in
  let good := Choices [(0, true); (3, true)]%nat [] true true Committed true [] in
  let bad := Choices [(0, true); (3, true); (0, false)]%nat [] true true Committed true [true] in
  fresh_names w /\ visible w = Some [9]
  /\ write_all_and_commit good [[1; 2]; [3]; [4]] [5; 6] w
     = (true, World [(0, [9]); (1, [1; 2; 3]); (2, [4])] [([0], []); ([1; 2], [5; 6])] 3)
  /\ write_all_and_commit bad [[1; 2]; [3]; [4]] [5; 6] w
     = (false, World [(0, [9])] [([0], [])] 2).
Proof.
  cbv zeta. split; [intros f [<-|[]]; reflexivity|]. split; [reflexivity|].
  split; reflexivity.
Qed.
