(** Lemmas about transferring all tables. *)
From Coq Require Import ZArith Bool String List Lia Permutation Arith.
From Verif.Model Require Import Base Transfer.
From Verif.Spec Require Import TransferSpec NodeFlushSpec.
From Verif.Proofs Require Import TransferProofs TransferSizes TransferBounds.
Import ListNotations.
Open Scope Z_scope.

(** ** Tables with rows have a size *)

(** What task [a] will subtract from the size of [t], after it has deleted the rows. *)
Definition taken (t : string) (a : task) : Z :=
  match a with
  | Holds _ (Transfers (Truncated k z) _ _) => if String.eqb k t then z else 0
  | _ => 0
  end.

Definition noted (t : string) (s : state) : Prop :=
  x_local s t <> [] ->
  0 < recorded_size t s + all_due t (x_tasks s)
  /\ forall i a, nth_error (x_tasks s) i = Some a ->
     taken t a < recorded_size t s + all_due t (x_tasks s).

Lemma taken_transfers : forall t a, taken t a = 0 \/ transfers t a /\ taken t a = transfer_size a.
Proof.
  intros t [|k z|l [k z|k z|k z|k|[|k|k z|k z r|k z|k z] todo f]]; cbn; auto.
  destruct (String.eqb k t) eqn:E; [|auto]. apply String.eqb_eq in E. auto.
Qed.

Lemma noted_task : forall t s s' i a b,
  noted t s ->
  x_local s' t = x_local s t \/ x_local s' t = [] ->
  nth_error (x_tasks s) i = Some a -> x_tasks s' = set_nth i b (x_tasks s) ->
  recorded_size t s' + due t b = recorded_size t s + due t a ->
  taken t b = 0 \/ taken t b = taken t a ->
  noted t s'.
Proof.
  intros t s s' i a b N El Ea Es Er Hb Hl.
  assert (Hl' : x_local s t <> []) by (destruct El as [<-|E]; [exact Hl | contradiction]).
  destruct (N Hl') as [N1 N2]. rewrite Es, (all_due_set _ _ _ _ _ Ea).
  split; [lia|]. intros j c Hj. apply nth_set in Hj.
  destruct Hj as [(-> & -> & _)|(Nj & Hj)].
  - pose proof (N2 i a Ea). lia.
  - pose proof (N2 j c Hj). lia.
Qed.

Lemma noted_step : forall t past e s s',
  sized t past s -> noted t s -> bytes_bounded t (past ++ [e]) -> peaceful e s ->
  takes_space t e s -> step e s = Went s' -> noted t s'.
Proof.
  intros t past e s s' S N HB (Hu & Hone & Hins) Hts Hstep.
  pose proof (HB past [e] eq_refl) as Hlim.
  assert (Hsame : forall i a b s1, nth_error (x_tasks s) i = Some a ->
            x_local s1 = x_local s -> x_sizes s1 = x_sizes s ->
            x_tasks s1 = set_nth i b (x_tasks s) -> due t b = due t a ->
            taken t b = 0 \/ taken t b = taken t a -> noted t s1).
  { intros i a b s1 Ea E1 E2 E3 E4 E5.
    apply (noted_task t s s1 i a b N); [left; rewrite E1; reflexivity | exact Ea | exact E3 | | exact E5].
    unfold recorded_size. rewrite E2, E4. reflexivity. }
  destruct e; unfold step, begin_transfers, restart in Hstep; cbv zeta in Hstep.
  - (* Save *)
    branch Hstep. apply is_free_spec in E. cbn [unsigned] in Hu. cbn [takes_space] in Hts.
    destruct (String.eqb t0 t) eqn:Et.
    + apply String.eqb_eq in Et. subst t0. intros Hl. cbn [set_task x_local] in Hl.
      rewrite update_same in Hl.
      unfold set_task. cbn [x_tasks]. rewrite (all_due_set _ _ _ _ _ E). cbn [due].
      rewrite String.eqb_refl.
      match goal with |- context [recorded_size t ?x] =>
        change (recorded_size t x) with (recorded_size t s) end.
      assert (Hd : 0 <= all_due t (x_tasks s)).
      { pose proof (due_le_all t _ _ _ (sz_due _ _ _ S) E). lia. }
      pose proof (sz_low _ _ _ S) as Hlow.
      destruct rows as [|r rows].
      * rewrite app_nil_r in Hl. destruct (N Hl) as [N1 N2]. split; [lia|].
        intros j c Hj. apply nth_set in Hj.
        destruct Hj as [(-> & -> & _)|(Nj & Hj)]; [cbn [taken]; lia|].
        pose proof (N2 j c Hj). lia.
      * assert (0 < size) by (apply Hts; [reflexivity | discriminate]). split; [lia|].
        intros j c Hj. apply nth_set in Hj.
        destruct Hj as [(-> & -> & _)|(Nj & Hj)]; [cbn [taken]; lia|].
        destruct (taken_transfers t c) as [-> |[Tc ->]]; [lia|].
        pose proof (sz_part _ _ _ S j c Hj Tc). lia.
    + eapply noted_task; [exact N | left | exact E | reflexivity | | left; reflexivity].
      * cbn [set_task x_local]. apply update_other. intros ->.
        rewrite String.eqb_refl in Et. discriminate.
      * cbn [due]. rewrite Et. reflexivity.
  - branch Hstep. eapply Hsame; [exact E | reflexivity..| left; reflexivity].
  - branch Hstep. apply andb_true_iff in E. destruct E as [E _]. apply is_free_spec in E.
    eapply Hsame; [exact E | reflexivity..| left; reflexivity].
  - branch Hstep. apply andb_true_iff in E. destruct E as [E _]. apply is_free_spec in E.
    eapply Hsame; [exact E | reflexivity..| left; reflexivity].
  - branch Hstep; apply andb_true_iff in E; destruct E as [E _]; apply is_free_spec in E;
      (eapply Hsame; [exact E | reflexivity..| left; reflexivity]).
  - branch Hstep. exact N.
  - branch Hstep. cbn [takes_space] in Hts. intros Hl.
    destruct (N Hl) as [N1 N2].
    assert (Er : recorded_size t
              (State (x_local s) (x_remote s) (remove_size t0 (x_sizes s))
                 (filter (fun k => negb (String.eqb k t0)) (x_dropped s)) (x_batch s) (x_tasks s))
              = recorded_size t s).
    { unfold recorded_size. cbn [x_sizes]. rewrite size_of_remove.
      destruct (String.eqb t0 t) eqn:Et; [|reflexivity].
      apply String.eqb_eq in Et. contradiction. }
    rewrite Er. split; [exact N1 | exact N2].
  - (* Go *)
    unfold go in Hstep. destruct (nth_error (x_tasks s) i) as [[|u z|l w]|] eqn:Ei;
      try discriminate.
    pose proof (due_le_all t _ _ _ (sz_due _ _ _ S) Ei) as Hle.
    destruct w as [u z|u z|u z|u|p todo for_].
    + branch Hstep; (eapply Hsame; [exact Ei | reflexivity..| left; reflexivity]).
    + (* Inserting *)
      pose proof (Hins _ _ _ Ei) as Hnone. branch Hstep.
      eapply noted_task; [exact N | left; reflexivity | exact Ei | reflexivity | | left; reflexivity].
      cbn [due]. f_equal.
      unfold set_task, recorded_size. cbn [x_sizes with_sizes]. rewrite size_of_set.
      destruct (String.eqb u t) eqn:Et; [|reflexivity].
      apply String.eqb_eq in Et. subst u. rewrite Hnone. reflexivity.
    + (* Adding *)
      branch Hstep. pose proof (sz_high _ _ _ S) as Hhigh. pose proof (sz_low _ _ _ S) as Hlow.
      assert (Hpast : bytes t 0 past < 2 ^ 64) by exact (HB past [Go i ok] eq_refl).
      eapply noted_task; [exact N | left; reflexivity | exact Ei | reflexivity | | left; reflexivity].
      cbn [due] in *. unfold set_task, recorded_size. cbn [x_sizes with_sizes].
      rewrite size_of_set. unfold recorded_size in *.
      destruct (String.eqb u t) eqn:Et.
      * apply String.eqb_eq in Et. subst u. rewrite E in *. rewrite u64_small by lia. lia.
      * lia.
    + branch Hstep; (eapply Hsame; [exact Ei | reflexivity..| left; reflexivity]).
    + destruct p as [|u|u z|u z rows|u z|u z]; unfold transfer_step, finish, fail in Hstep;
        cbv zeta in Hstep.
      * branch Hstep; (eapply Hsame; [exact Ei | reflexivity..| left; reflexivity]).
      * branch Hstep; (eapply Hsame; [exact Ei | reflexivity..| left; reflexivity]).
      * branch Hstep; (eapply Hsame; [exact Ei | reflexivity..| left; reflexivity]).
      * branch Hstep; (eapply Hsame; [exact Ei | reflexivity..| left; reflexivity]).
      * (* Written *)
        branch Hstep; [|eapply Hsame; [exact Ei | reflexivity..| left; reflexivity]
                       |eapply Hsame; [exact Ei | reflexivity..| left; reflexivity]].
        destruct (String.eqb u t) eqn:Et.
        -- apply String.eqb_eq in Et. subst u. intros Hl. destruct Hl.
           cbn [set_task x_local]. apply update_same.
        -- eapply noted_task; [exact N | left | exact Ei | reflexivity | reflexivity |].
           ++ cbn [set_task x_local]. apply update_other. intros ->.
              rewrite String.eqb_refl in Et. discriminate.
           ++ left. cbn [taken]. rewrite Et. reflexivity.
      * (* Truncated *)
        branch Hstep. destruct (String.eqb u t) eqn:Et.
        -- pose proof Et as Et'. apply String.eqb_eq in Et'. subst u.
           intros Hl. change (x_local s t <> []) in Hl. destruct (N Hl) as [N1 N2].
           pose proof (sz_part _ _ _ S _ _ Ei eq_refl) as Hp. cbn [transfer_size] in Hp.
           pose proof (N2 _ _ Ei) as Hz. cbn [taken] in Hz. rewrite Et in Hz.
           pose proof (sz_high _ _ _ S) as Hhigh.
           assert (Hpast : bytes t 0 past < 2 ^ 64) by exact (HB past [Go i ok] eq_refl).
           assert (Ec : recorded_size t s = z0) by (unfold recorded_size; rewrite E; reflexivity).
           cbn [due] in Hle.
           match goal with |- context [recorded_size t ?x] =>
             assert (En : recorded_size t x = z0 - z) end.
           { unfold recorded_size, set_task, with_sizes. cbn [x_sizes].
             rewrite size_of_set, Et. apply u64_small. lia. }
           rewrite En. cbn [x_tasks set_task with_sizes].
           rewrite (all_due_set _ _ _ _ _ Ei). cbn [due]. split; [lia|].
           intros j c Hj. apply nth_set in Hj.
           destruct Hj as [(-> & -> & _)|(Nj & Hj)]; [cbn [taken]; lia|].
           destruct (taken_transfers t c) as [-> |[Tc _]]; [lia|].
           destruct Nj. exact (sz_one _ _ _ S j i c _ Hj Ei Tc eq_refl).
        -- eapply noted_task; [exact N | left; reflexivity | exact Ei | reflexivity | | left; reflexivity].
           cbn [due]. f_equal. unfold recorded_size, set_task, with_sizes. cbn [x_sizes].
           rewrite size_of_set, Et. reflexivity.
  - (* Crash *)
    branch Hstep. cbn [takes_space] in Hts. intros Hl. cbn [x_local] in Hl.
    destruct (Hts Hl) as (z & Ez & Hz).
    assert (Ed : all_due t match x_tasks s with [] => []
                   | _ :: l => Holds Exclusive (Transfers Next todo Report)
                               :: map (fun _ => Free) l end = 0).
    { destruct (x_tasks s) as [|a l]; [reflexivity|]. cbn [all_due fold_right due].
      fold (all_due t (map (fun _ : task => Free) l)). rewrite all_due_free. reflexivity. }
    unfold recorded_size. cbn [x_sizes x_tasks]. rewrite Ez, Ed. split; [lia|].
    intros j c Hj. tasks_cases; subst; cbn [taken]; lia.
Qed.

Lemma noted_run : forall n batch events s t,
  run events (start n batch) = Went s ->
  along peaceful events (start n batch) ->
  along (takes_space t) events (start n batch) ->
  bytes_bounded t events ->
  sized t events s /\ noted t s.
Proof.
  intros n batch events s t Hr Ha Hs Hb.
  refine (run_invariant (fun e s => peaceful e s /\ takes_space t e s)
            (fun past s => bytes_bounded t past -> sized t past s /\ noted t s) _
            events [] _ _ (fun _ => conj (sized_start t n batch) _) (along_and _ _ _ _ Ha Hs) Hr Hb).
  - intros past e s0 s1 HI [He Ht] Hst Hb1. destruct (HI (bounded_prefix _ _ _ Hb1)) as [S N].
    split; [exact (sized_step t past e s0 s1 S Hb1 He Hst)|].
    exact (noted_step t past e s0 s1 S N Hb1 He Ht Hst).
  - intros Hl. destruct Hl. reflexivity.
Qed.

(** A table with rows is transferred when all sizes are added. *)
Lemma no_due : forall t s, all_added t s -> all_due t (x_tasks s) = 0.
Proof.
  intros t s H. unfold all_added in H. induction (x_tasks s) as [|a l IH]; [reflexivity|].
  cbn [all_due fold_right]. fold (all_due t l).
  rewrite IH by (intros b Hb; apply H; right; exact Hb).
  assert (Ha : ~ adds t a) by (apply H; left; reflexivity). clear -Ha.
  assert (Hk : forall k, k <> t -> String.eqb k t = false).
  { intros k Nk. destruct (String.eqb k t) eqn:E; [|reflexivity].
    apply String.eqb_eq in E. contradiction. }
  destruct a as [|k z|l [k z|k z|k z|k|p todo f]]; cbn in *; try reflexivity;
    rewrite (Hk k Ha); reflexivity.
Qed.

Lemma all_listed : forall n batch before i todo s s1 t,
  run before (start n batch) = Went s ->
  along peaceful before (start n batch) ->
  along (takes_space t) before (start n batch) ->
  bytes_bounded t before ->
  all_added t s ->
  step (Transfer_all i todo) s = Went s1 ->
  nth_error (x_tasks s1) i = Some (Holds Shared (Transfers Next todo Report))
  /\ x_local s1 = x_local s /\ x_remote s1 = x_remote s /\ x_dropped s1 = x_dropped s
  /\ (x_local s t <> [] -> In t todo).
Proof.
  intros n batch before i todo s s1 t Hr Hp Ht Hb Hadd Hstep.
  destruct (noted_run n batch before s t Hr Hp Ht Hb) as [S N].
  unfold step, begin_transfers in Hstep.
  destruct (is_free i s && read_free s) eqn:E; [|discriminate].
  destruct (lists_tables _ _ todo) eqn:El in Hstep; [|discriminate]. injection Hstep as <-.
  apply andb_true_iff in E. destruct E as [E _]. apply is_free_spec in E.
  split; [exact (nth_set_same _ _ _ _ _ E)|].
  split; [reflexivity|]. split; [reflexivity|]. split; [reflexivity|].
  intros Hl. destruct (N Hl) as [N1 _]. rewrite (no_due t s Hadd) in N1.
  unfold recorded_size in N1. destruct (size_of t (x_sizes s)) as [z|] eqn:Ez; [|lia].
  apply (proj2 (lists_tables_spec _ _ _ El) t z Ez). apply Z.ltb_lt. lia.
Qed.

(** ** All rows reach the remote data folder *)

Definition to_do (t : string) (p : phase) (todo : list string) : Prop :=
  In t todo \/ match p with Begin k | Started k _ => k = t | _ => False end.

(** The rows [R] are in the remote table, or task [i] will write them to it. *)
Definition carried (R : list Z) (i : nat) (t : string) (s : state) : Prop :=
  mem t (x_dropped s) = false
  /\ (incl R (x_remote s t)
      \/ exists l p todo f, nth_error (x_tasks s) i = Some (Holds l (Transfers p todo f))
         /\ (to_do t p todo
             \/ exists z rows, p = Scanned t z rows /\ incl R (rows ++ x_remote s t))).

Lemma remote_grows : forall e s s' t, step e s = Went s' -> incl (x_remote s t) (x_remote s' t).
Proof.
  intros e s s' t Hstep. destruct e; step_cases Hstep; try apply incl_refl.
  destruct (String.eqb t1 t) eqn:Et.
  - apply String.eqb_eq in Et. subst t1. rewrite update_same. apply incl_appl, incl_refl.
  - rewrite update_other; [apply incl_refl|]. intros ->. rewrite String.eqb_refl in Et. discriminate.
Qed.

(** No step of another task changes what task [i] does, except a crash. *)
Lemma other_task : forall e s s' i a,
  nth_error (x_tasks s) i = Some a -> holds a = true -> step e s = Went s' ->
  match e with
  | Go j _ => j <> i -> nth_error (x_tasks s') i = Some a
  | Crash _ _ => True
  | _ => nth_error (x_tasks s') i = Some a
  end.
Proof.
  intros e s s' i a Ha Hh Hstep.
  assert (Hf : forall j, is_free j s = true -> i <> j).
  { intros j Hj ->. apply is_free_spec in Hj. rewrite Hj in Ha. injection Ha as <-. discriminate. }
  destruct e; step_cases Hstep; try exact I; try exact Ha;
    try (rewrite nth_set_other; [exact Ha|]).
  all: try (apply Hf; apply andb_true_iff in E; exact (proj1 E)).
  all: try (intros Nj; rewrite nth_set_other; [exact Ha | congruence]).
  all: try (apply Hf; exact E).
  intros ->. rewrite E in Ha. injection Ha as <-. discriminate.
Qed.

Lemma dropped_kept : forall e s s' i t,
  mem t (x_dropped s) = false -> succeeds i t e s -> step e s = Went s' ->
  mem t (x_dropped s') = false.
Proof.
  intros e s s' i t Hd Hs Hstep. destruct e; step_cases Hstep; try exact Hd; cbn [succeeds] in Hs.
  - unfold mem in *. cbn [existsb]. rewrite Hd.
    destruct (String.eqb t t0) eqn:E1; [|reflexivity]. apply String.eqb_eq in E1. congruence.
  - rewrite mem_filter. destruct (String.eqb t0 t); [reflexivity | exact Hd].
  - contradiction.
Qed.

Lemma carried_step : forall R i t e s s',
  carried R i t s -> incl R (x_local s t ++ x_remote s t) -> succeeds i t e s ->
  step e s = Went s' -> carried R i t s'.
Proof.
  intros R i t e s s' [Hd C] Hkept Hs Hstep.
  split; [exact (dropped_kept e s s' i t Hd Hs Hstep)|].
  pose proof (remote_grows e s s' t Hstep) as Hg.
  destruct C as [C|(l & p & todo & f & Ei & C)].
  { left. exact (incl_tran C Hg). }
  pose proof (other_task e s s' i _ Ei eq_refl Hstep) as Ho.
  assert (Hkeep : nth_error (x_tasks s') i = Some (Holds l (Transfers p todo f)) ->
            incl R (x_remote s' t)
            \/ (exists l p todo f, nth_error (x_tasks s') i = Some (Holds l (Transfers p todo f))
                /\ (to_do t p todo
                    \/ exists z rows, p = Scanned t z rows /\ incl R (rows ++ x_remote s' t)))).
  { intros E'. right. exists l, p, todo, f. split; [exact E'|].
    destruct C as [C|(z & rows & -> & C)]; [left; exact C|]. right. exists z, rows.
    split; [reflexivity|]. intros x Hx. apply C in Hx. apply in_app_or in Hx.
    apply in_or_app. destruct Hx as [Hx|Hx]; [left; exact Hx | right; exact (Hg x Hx)]. }
  destruct e; try (apply Hkeep; exact Ho); [|contradiction].
  destruct (Nat.eq_dec i0 i) as [->|Nj]; [|apply Hkeep; exact (Ho Nj)].
  assert (Hok : ok = true) by (apply Hs; reflexivity). subst ok. clear Hkeep Ho.
  unfold step, go in Hstep. rewrite Ei in Hstep. unfold transfer_step, finish in Hstep.
  cbv zeta in Hstep.
  assert (Hnew : forall a, nth_error (set_nth i a (x_tasks s)) i = Some a).
  { intros a. exact (nth_set_same _ _ _ _ _ Ei). }
  destruct p as [|u|u z|u z rows|u z|u z].
  - destruct todo as [|u todo].
    + destruct C as [[[]|[]]|(z & rows & E & _)]. discriminate.
    + injection Hstep as <-. right. eexists _, _, _, _. split; [exact (Hnew _)|]. left.
      destruct C as [[[->|C]|[]]|(z & rows & E & _)]; [right; reflexivity | left; exact C | discriminate].
  - destruct (mem u (x_dropped s)) eqn:Eu.
    + injection Hstep as <-. right. eexists _, _, _, _. split; [exact (Hnew _)|]. left.
      destruct C as [[C|C]|(z & rows & E & _)]; [left; exact C | cbn in C; congruence | discriminate].
    + destruct (size_of u (x_sizes s)) as [z|]; [|discriminate]. injection Hstep as <-.
      right. eexists _, _, _, _. split; [exact (Hnew _)|]. left.
      destruct C as [[C|C]|(z' & rows & E & _)]; [left; exact C | right; exact C | discriminate].
  - injection Hstep as <-. right. eexists _, _, _, _. split; [exact (Hnew _)|].
    destruct C as [[C|C]|(z' & rows & E & _)]; [left; left; exact C | | discriminate].
    cbn in C. subst u. right. eexists _, _. split; [reflexivity | exact Hkept].
  - injection Hstep as <-.
    destruct C as [[C|[]]|(z' & rows' & E & C)].
    + right. eexists _, _, _, _. split; [exact (Hnew _)|]. left. left. exact C.
    + injection E as -> -> ->. left. cbn [set_task x_remote]. rewrite update_same.
      intros x Hx. apply C in Hx. rewrite in_app_iff in *. tauto.
  - injection Hstep as <-.
    destruct C as [[C|[]]|(z' & rows' & E & C)]; [|discriminate].
    right. eexists _, _, _, _. split; [exact (Hnew _)|]. left. left. exact C.
  - destruct (size_of u (x_sizes s)) as [z'|]; [|discriminate]. injection Hstep as <-.
    destruct C as [[C|[]]|(z'' & rows' & E & C)]; [|discriminate].
    right. eexists _, _, _, _. split; [exact (Hnew _)|]. left. left. exact C.
Qed.

Lemma along_split : forall P a b s s1,
  along P (a ++ b) s -> run a s = Went s1 -> along P a s /\ along P b s1.
Proof.
  intros P a. induction a as [|e a IH]; intros b s s1 H Hr.
  - injection Hr as <-. split; [exact I | exact H].
  - cbn [app along run] in *. destruct H as [He H].
    destruct (step e s) as [s2| |]; try discriminate.
    destruct (IH b s2 s1 H Hr). split; [split|]; assumption.
Qed.

Lemma run_split : forall a b s,
  run (a ++ b) s = match run a s with Went s1 => run b s1 | r => r end.
Proof.
  intros a. induction a as [|e a IH]; intros b s; [reflexivity|].
  cbn [app run]. destruct (step e s); [apply IH | reflexivity | reflexivity].
Qed.

Theorem all_transferred : forall n batch before i todo later s s1 s2 t,
  run before (start n batch) = Went s ->
  step (Transfer_all i todo) s = Went s1 ->
  run later s1 = Went s2 ->
  along unsigned before (start n batch) ->
  along one_transfer_at_a_time before (start n batch) ->
  along no_insert_race before (start n batch) ->
  along (takes_space t) before (start n batch) ->
  bytes_bounded t before ->
  along no_save_while_moving (before ++ Transfer_all i todo :: later) (start n batch) ->
  all_added t s -> mem t (x_dropped s) = false ->
  along (succeeds i t) later s1 ->
  done i s2 ->
  incl (saved t before) (x_remote s2 t).
Proof.
  intros n batch before i todo later s s1 s2 t Hr Hst Hl H1 H2 H3 Ht Hb Hns Hadd Hd Hsu Hdone.
  destruct (all_listed n batch before i todo s s1 t Hr
              (along_and _ _ _ _ H1 (along_and _ _ _ _ H2 H3)) Ht Hb Hadd Hst)
    as (Ei & El & Er & Ed & Hin).
  destruct (along_split _ _ _ _ _ Hns Hr) as [Hns1 [_ Hns2]]. rewrite Hst in Hns2.
  pose proof (run_invariant _ _ (kept_step t) before [] _ _ (kept_start t n batch) Hns1 Hr) as K0.
  cbn [app] in K0.
  assert (K1 : kept t (before ++ [Transfer_all i todo]) s1)
    by exact (kept_step t before (Transfer_all i todo) s s1 K0 I Hst).
  assert (HI : forall past e s0 s',
            carried (saved t before) i t s0 /\ kept t past s0
              /\ incl (saved t before) (saved t past) ->
            succeeds i t e s0 /\ no_save_while_moving e s0 -> step e s0 = Went s' ->
            carried (saved t before) i t s' /\ kept t (past ++ [e]) s'
              /\ incl (saved t before) (saved t (past ++ [e]))).
  { intros past e s0 s' (C & K & Hi) [Hs Hn] Hstep. split; [|split].
    - exact (carried_step _ i t e s0 s' C (incl_tran Hi (proj1 K)) Hs Hstep).
    - exact (kept_step t past e s0 s' K Hn Hstep).
    - rewrite saved_app. apply incl_appl. exact Hi. }
  assert (C1 : carried (saved t before) i t s1).
  { split; [rewrite Ed; exact Hd|]. pose proof (proj1 K0) as Hk.
    destruct (x_local s t) as [|x xs] eqn:Ex.
    - left. rewrite Er. exact Hk.
    - right. eexists _, _, _, _. split; [exact Ei|]. left. left. apply Hin. discriminate. }
  assert (I1 : incl (saved t before) (saved t (before ++ [Transfer_all i todo])))
    by (rewrite saved_app; apply incl_appl, incl_refl).
  pose proof (run_invariant _ _ HI later _ s1 s2 (conj C1 (conj K1 I1))
                (along_and _ _ _ _ Hsu Hns2) Hl) as [[_ C2] _].
  destruct C2 as [C2|(l & p & todo' & f & E & _)]; [exact C2|].
  unfold done in Hdone. rewrite Hdone in E. discriminate.
Qed.

(** ** No rows are left in the local table *)

Definition still_to_do (t : string) (p : phase) (todo : list string) : Prop :=
  In t todo
  \/ match p with Begin k | Started k _ | Scanned k _ _ | Written k _ => k = t | _ => False end.

Definition emptied (i : nat) (t : string) (s : state) : Prop :=
  mem t (x_dropped s) = false
  /\ (x_local s t = []
      \/ exists l p todo f, nth_error (x_tasks s) i = Some (Holds l (Transfers p todo f))
         /\ still_to_do t p todo).

Lemma local_shrinks : forall e s s' t,
  no_save t e s -> step e s = Went s' -> x_local s' t = x_local s t \/ x_local s' t = [].
Proof.
  intros e s s' t Hn Hstep. destruct e; step_cases Hstep; auto.
  - cbn [no_save] in Hn. left. apply update_other. congruence.
  - destruct (String.eqb t1 t) eqn:Et.
    + apply String.eqb_eq in Et. subst t1. right. apply update_same.
    + left. apply update_other. intros ->. rewrite String.eqb_refl in Et. discriminate.
Qed.

Lemma emptied_step : forall i t e s s',
  emptied i t s -> succeeds i t e s /\ no_save t e s -> step e s = Went s' -> emptied i t s'.
Proof.
  intros i t e s s' [Hd C] [Hs Hn] Hstep.
  split; [exact (dropped_kept e s s' i t Hd Hs Hstep)|].
  pose proof (local_shrinks e s s' t Hn Hstep) as Hg.
  destruct C as [C|(l & p & todo & f & Ei & C)].
  { left. destruct Hg as [-> | ->]; [exact C | reflexivity]. }
  pose proof (other_task e s s' i _ Ei eq_refl Hstep) as Ho.
  assert (Hkeep : nth_error (x_tasks s') i = Some (Holds l (Transfers p todo f)) ->
            x_local s' t = []
            \/ exists l p todo f, nth_error (x_tasks s') i = Some (Holds l (Transfers p todo f))
               /\ still_to_do t p todo).
  { intros E'. right. exists l, p, todo, f. split; [exact E' | exact C]. }
  destruct e; try (apply Hkeep; exact Ho); [|contradiction].
  destruct (Nat.eq_dec i0 i) as [->|Nj]; [|apply Hkeep; exact (Ho Nj)].
  assert (Hok : ok = true) by (apply Hs; reflexivity). subst ok. clear Hkeep Ho.
  unfold step, go in Hstep. rewrite Ei in Hstep. unfold transfer_step, finish in Hstep.
  cbv zeta in Hstep.
  assert (Hnew : forall a, nth_error (set_nth i a (x_tasks s)) i = Some a).
  { intros a. exact (nth_set_same _ _ _ _ _ Ei). }
  destruct p as [|u|u z|u z rows|u z|u z].
  - destruct todo as [|u todo]; [destruct C as [[]|[]]|].
    injection Hstep as <-. right. eexists _, _, _, _. split; [exact (Hnew _)|].
    destruct C as [[->|C]|[]]; [right; reflexivity | left; exact C].
  - destruct (mem u (x_dropped s)) eqn:Eu.
    + injection Hstep as <-. right. eexists _, _, _, _. split; [exact (Hnew _)|].
      destruct C as [C|C]; [left; exact C | cbn in C; congruence].
    + destruct (size_of u (x_sizes s)) as [z|]; [|discriminate]. injection Hstep as <-.
      right. eexists _, _, _, _. split; [exact (Hnew _) | exact C].
  - injection Hstep as <-. right. eexists _, _, _, _. split; [exact (Hnew _) | exact C].
  - injection Hstep as <-. right. eexists _, _, _, _. split; [exact (Hnew _) | exact C].
  - injection Hstep as <-. destruct C as [C|C].
    + right. eexists _, _, _, _. split; [exact (Hnew _)|]. left. exact C.
    + left. cbn in C. subst u. cbn [set_task x_local]. apply update_same.
  - destruct (size_of u (x_sizes s)) as [z'|]; [|discriminate]. injection Hstep as <-.
    destruct C as [C|[]].
    right. eexists _, _, _, _. split; [exact (Hnew _)|]. left. exact C.
Qed.

Theorem all_moved : forall n batch before i todo later s s1 s2 t,
  run before (start n batch) = Went s ->
  step (Transfer_all i todo) s = Went s1 ->
  run later s1 = Went s2 ->
  along unsigned before (start n batch) ->
  along no_insert_race before (start n batch) ->
  along (takes_space t) before (start n batch) ->
  bytes_bounded t before ->
  along no_save_while_moving (before ++ Transfer_all i todo :: later) (start n batch) ->
  along one_transfer_at_a_time (before ++ Transfer_all i todo :: later) (start n batch) ->
  along truncates_what_is_written (before ++ Transfer_all i todo :: later) (start n batch) ->
  all_added t s -> mem t (x_dropped s) = false ->
  along (succeeds i t) later s1 ->
  along (no_save t) later s1 ->
  done i s2 ->
  (forall a, In a (x_tasks s2) -> ~ has_written t a) ->
  x_local s2 t = [] /\ Permutation (saved t before) (x_remote s2 t).
Proof.
  intros n batch before i todo later s s1 s2 t Hr Hst Hl H1 H3 Ht Hb Hns Hone Htr Hadd Hd Hsu Hsave
    Hdone Hw.
  destruct (along_split _ _ _ _ _ Hone Hr) as [H2 _].
  destruct (all_listed n batch before i todo s s1 t Hr
              (along_and _ _ _ _ H1 (along_and _ _ _ _ H2 H3)) Ht Hb Hadd Hst)
    as (Ei & El & Er & Ed & Hin).
  assert (C1 : emptied i t s1).
  { split; [rewrite Ed; exact Hd|]. rewrite El.
    destruct (x_local s t) as [|x xs] eqn:Ex; [left; reflexivity|].
    right. eexists _, _, _, _. split; [exact Ei|]. left. apply Hin. discriminate. }
  pose proof (run_invariant _ (fun _ s => emptied i t s)
                (fun past e s0 s' => emptied_step i t e s0 s') later [] s1 s2 C1
                (along_and _ _ _ _ Hsu Hsave) Hl) as [_ C2].
  assert (Hnil : x_local s2 t = []).
  { destruct C2 as [C2|(l & p & todo' & f & E & _)]; [exact C2|].
    unfold done in Hdone. rewrite Hdone in E. discriminate. }
  split; [exact Hnil|].
  assert (Hall : run (before ++ Transfer_all i todo :: later) (start n batch) = Went s2).
  { rewrite run_split, Hr. cbn [run]. rewrite Hst. exact Hl. }
  pose proof (exactly_once n batch _ s2 t Hall Hns Hone Htr Hw) as Hp.
  rewrite Hnil in Hp. cbn [app] in Hp. rewrite saved_app in Hp. cbn [saved] in Hp.
  assert (Hnone : saved t later = []).
  { clear -Hsave Hl. revert s1 Hl Hsave.
    induction later as [|e later IH]; intros s1 Hl Hsave; [reflexivity|].
    cbn [run along] in *. destruct Hsave as [He Hsave].
    destruct (step e s1) as [s3| |]; try discriminate.
    destruct e; cbn [saved]; try (exact (IH s3 Hl Hsave)).
    cbn [no_save] in He. destruct (String.eqb t0 t) eqn:Et.
    - apply String.eqb_eq in Et. contradiction.
    - exact (IH s3 Hl Hsave). }
  rewrite Hnone, app_nil_r in Hp. exact Hp.
Qed.

(** ** A transfer ends *)

Definition effort (p : phase) (todo : list string) : nat :=
  6 * List.length todo
  + match p with
    | Next => 1 | Begin _ => 6 | Started _ _ => 5 | Scanned _ _ _ => 4 | Written _ _ => 3
    | Truncated _ _ => 2
    end.

Lemma transfer_ends : forall m i l p todo s,
  recorded s -> nth_error (x_tasks s) i = Some (Holds l (Transfers p todo Report)) ->
  (effort p todo <= m)%nat ->
  exists k s', run (repeat (Go i true) k) s = Went s' /\ done i s'.
Proof.
  intros m. induction m as [|m IH]; intros i l p todo s R Ei Hm.
  { destruct p; unfold effort in Hm; lia. }
  assert (Hgo : forall p' todo' s1, step (Go i true) s = Went s1 ->
            nth_error (x_tasks s1) i = Some (Holds l (Transfers p' todo' Report)) ->
            (effort p' todo' <= m)%nat ->
            exists k s', run (repeat (Go i true) k) s = Went s' /\ done i s').
  { intros p' todo' s1 Hs E1 Hm'.
    destruct (IH i l p' todo' s1 (recorded_step _ _ _ R Hs) E1 Hm') as (k & s' & Hk & Hd).
    exists (S k), s'. split; [|exact Hd]. cbn [repeat run]. rewrite Hs. exact Hk. }
  assert (Hnew : forall a, nth_error (set_nth i a (x_tasks s)) i = Some a).
  { intros a. exact (nth_set_same _ _ _ _ _ Ei). }
  assert (Hstep : step (Go i true) s = transfer_step i true l p todo Report s).
  { cbn [step]. unfold go. rewrite Ei. reflexivity. }
  destruct p as [|u|u z|u z rows|u z|u z]; unfold transfer_step in Hstep; cbv zeta in Hstep.
  - destruct todo as [|u todo].
    + exists 1%nat. eexists. split; [cbn [repeat run]; rewrite Hstep; reflexivity|].
      exact (Hnew Free).
    + apply (Hgo _ _ _ Hstep (Hnew _)). unfold effort in *. cbn [List.length] in Hm. lia.
  - destruct (mem u (x_dropped s)) eqn:Eu.
    + apply (Hgo _ _ _ Hstep (Hnew _)). unfold effort in *. lia.
    + destruct (size_of u (x_sizes s)) as [z|] eqn:Ez.
      * apply (Hgo _ _ _ Hstep (Hnew _)). unfold effort in *. lia.
      * destruct (R u _ _ Ei (or_intror eq_refl) Ez).
  - apply (Hgo _ _ _ Hstep (Hnew _)). unfold effort in *. lia.
  - apply (Hgo _ _ _ Hstep (Hnew _)). unfold effort in *. lia.
  - apply (Hgo _ _ _ Hstep (Hnew _)). unfold effort in *. lia.
  - destruct (size_of u (x_sizes s)) as [z'|] eqn:Ez.
    + apply (Hgo _ _ _ Hstep (Hnew _)). unfold effort in *. lia.
    + destruct (R u _ _ Ei (or_intror eq_refl) Ez).
Qed.

(** The tables that are larger than a threshold, in the order in which they are recorded. *)
Definition larger (over : Z -> bool) (sizes : list (string * Z)) : list string :=
  nodup string_dec
    (filter (fun t => match size_of t sizes with Some z => over z | None => false end)
       (map fst sizes)).

Lemma distinct_nodup : forall l, NoDup l -> distinct l = true.
Proof.
  intros l H. induction H as [|t l Hn H IH]; [reflexivity|]. cbn [distinct]. rewrite IH, andb_true_r.
  apply negb_true_iff. destruct (mem t l) eqn:E; [|reflexivity]. apply mem_true in E. contradiction.
Qed.

Lemma larger_lists : forall over sizes, lists_tables over sizes (larger over sizes) = true.
Proof.
  intros over sizes. unfold lists_tables, larger.
  rewrite distinct_nodup by apply NoDup_nodup. cbn [andb]. apply andb_true_iff. split.
  - apply forallb_forall. intros t Ht. apply nodup_In, filter_In in Ht. exact (proj2 Ht).
  - apply forallb_forall. intros [t z] Ht. cbn [fst].
    destruct (size_of t sizes) as [y|] eqn:Ey; [|reflexivity].
    destruct (over y) eqn:Eo; [|reflexivity]. apply mem_true, nodup_In, filter_In. split.
    + apply in_map_iff. exists (t, z). split; [reflexivity | exact Ht].
    + rewrite Ey. exact Eo.
Qed.

Theorem transfer_completes : forall n batch events s i,
  run events (start n batch) = Went s ->
  done i s -> (forall a, In a (x_tasks s) -> holds_exclusive a = false) ->
  exists todo k s', run (Transfer_all i todo :: repeat (Go i true) k) s = Went s' /\ done i s'.
Proof.
  intros n batch events s i Hr Hd Hx.
  set (todo := larger (fun z => 0 <? z) (x_sizes s)). exists todo.
  assert (Hs : step (Transfer_all i todo) s
               = Went (set_task i (Holds Shared (Transfers Next todo Report)) s)).
  { unfold step, begin_transfers. unfold is_free. unfold done in Hd. rewrite Hd.
    replace (read_free s) with true.
    - unfold todo. rewrite larger_lists. reflexivity.
    - symmetry. unfold read_free. apply negb_true_iff.
      destruct (existsb holds_exclusive (x_tasks s)) eqn:E; [|reflexivity].
      apply existsb_exists in E. destruct E as (a & Ha & E). rewrite (Hx a Ha) in E. discriminate. }
  destruct (transfer_ends _ i Shared Next todo _
              (recorded_step _ _ _ (recorded_run n batch events s Hr) Hs)
              (nth_set_same _ _ _ _ _ Hd) (Nat.le_refl _)) as (k & s' & Hk & Hdone).
  exists k, s'. split; [|exact Hdone]. cbn [run]. rewrite Hs. exact Hk.
Qed.
