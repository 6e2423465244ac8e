(** Lemmas about the size at which tables are transferred. *)
From Coq Require Import ZArith Bool String List Lia Permutation.
From Verif.Model Require Import Base Transfer.
From Verif.Spec Require Import TransferSpec.
From Verif.Proofs Require Import TransferProofs TransferSizes.
Import ListNotations.
Open Scope Z_scope.

(** ** The recorded size is at most what was saved (C32) *)

(** What task [a] will add to the size of [t]. *)
Definition due (t : string) (a : task) : Z :=
  match a with
  | Waits k z | Holds _ (Looking k z | Inserting k z | Adding k z) =>
      if String.eqb k t then z else 0
  | _ => 0
  end.

Definition all_due (t : string) (l : list task) : Z := fold_right (fun a n => due t a + n) 0 l.

Lemma all_due_set : forall t l i a b,
  nth_error l i = Some a -> all_due t (set_nth i b l) = all_due t l - due t a + due t b.
Proof.
  intros t l. induction l as [|c l IH]; intros [|i] a b H; cbn [nth_error] in H; try discriminate.
  - injection H as ->. cbn [set_nth all_due fold_right]. lia.
  - cbn [set_nth all_due fold_right]. unfold all_due in IH. rewrite (IH i a b H). lia.
Qed.

Lemma all_due_free : forall t l, all_due t (map (fun _ : task => Free) l) = 0.
Proof. intros t l. induction l as [|a l IH]; [reflexivity|]. cbn. exact IH. Qed.

Lemma due_le_all : forall t l i a,
  (forall j b, nth_error l j = Some b -> 0 <= due t b) ->
  nth_error l i = Some a -> 0 <= due t a <= all_due t l.
Proof.
  intros t l. induction l as [|c l IH]; intros [|i] a H Hi; cbn [nth_error] in Hi; try discriminate;
    cbn [all_due fold_right]; unfold all_due in IH.
  - injection Hi as ->. pose proof (H 0%nat a eq_refl).
    assert (0 <= fold_right (fun a0 n => due t a0 + n) 0 l).
    { clear -H. induction l as [|d l IH]; cbn [fold_right]; [lia|].
      pose proof (H 1%nat d eq_refl). enough (0 <= fold_right (fun a0 n => due t a0 + n) 0 l) by lia.
      apply IH. intros [|j] b Hj; [exact (H 0%nat b Hj) | exact (H (S (S j)) b Hj)]. }
    lia.
  - pose proof (H 0%nat c eq_refl).
    destruct (IH i a (fun j b Hj => H (S j) b Hj) Hi). lia.
Qed.

Lemma bytes_app : forall t q p b, bytes t b (p ++ q) = bytes t (bytes t b p) q.
Proof.
  intros t q p. induction p as [|e p IH]; intros b; [reflexivity|].
  destruct e; cbn [bytes app]; apply IH.
Qed.

Lemma bounded_prefix : forall t p q, bytes_bounded t (p ++ q) -> bytes_bounded t p.
Proof.
  intros t p q H a b ->. apply (H a (b ++ q)). rewrite app_assoc. reflexivity.
Qed.

Definition transfer_size (a : task) : Z :=
  match a with
  | Holds _ (Transfers (Started _ z | Scanned _ z _ | Written _ z | Truncated _ z) _ _) => z
  | _ => 0
  end.

Record sized (t : string) (past : list event) (s : state) : Prop := {
  sz_low : 0 <= recorded_size t s;
  sz_high : recorded_size t s + all_due t (x_tasks s) <= bytes t 0 past;
  sz_due : forall i a, nth_error (x_tasks s) i = Some a -> 0 <= due t a;
  sz_one : forall i j a b, nth_error (x_tasks s) i = Some a -> nth_error (x_tasks s) j = Some b ->
     transfers t a -> transfers t b -> i = j;
  sz_part : forall i a, nth_error (x_tasks s) i = Some a -> transfers t a ->
     0 <= transfer_size a <= recorded_size t s;
  sz_known : recorded s }.

Definition peaceful (e : event) (s : state) : Prop :=
  unsigned e s /\ one_transfer_at_a_time e s /\ no_insert_race e s.

(** A step of task [i] that leaves the size of [t] as it is. *)
Lemma sized_same : forall t past past' s s' i a b,
  sized t past s -> recorded s' ->
  bytes t 0 past' = bytes t 0 past + (due t b - due t a) ->
  recorded_size t s' = recorded_size t s ->
  nth_error (x_tasks s) i = Some a -> x_tasks s' = set_nth i b (x_tasks s) ->
  0 <= due t b ->
  (transfers t b -> transfers t a /\ transfer_size b = transfer_size a) ->
  sized t past' s'.
Proof.
  intros t past past' s s' i a b [S1 S2 S3 S4 S5 S6] HR Ep Er Ea Es Hd Hb.
  constructor.
  - rewrite Er. exact S1.
  - rewrite Er, Es, (all_due_set _ _ _ _ _ Ea), Ep. lia.
  - intros j c Hj. rewrite Es in Hj. apply nth_set in Hj.
    destruct Hj as [(-> & -> & _)|(Nj & Hj)]; [exact Hd | exact (S3 j c Hj)].
  - intros j k c d Hj Hk Tc Td. rewrite Es in Hj, Hk. apply nth_set in Hj, Hk.
    destruct Hj as [(-> & -> & _)|(Nj & Hj)], Hk as [(-> & -> & _)|(Nk & Hk)].
    + reflexivity.
    + exact (S4 i k a d Ea Hk (proj1 (Hb Tc)) Td).
    + exact (S4 j i c a Hj Ea Tc (proj1 (Hb Td))).
    + exact (S4 j k c d Hj Hk Tc Td).
  - intros j c Hj Tc. rewrite Er. rewrite Es in Hj. apply nth_set in Hj.
    destruct Hj as [(-> & -> & _)|(Nj & Hj)].
    + destruct (Hb Tc) as [Ta ->]. exact (S5 i a Ea Ta).
    + exact (S5 j c Hj Tc).
  - exact HR.
Qed.

Lemma recorded_size_set : forall t u z s,
  recorded_size t (with_sizes (set_size u z (x_sizes s)) s)
  = if String.eqb u t then z else recorded_size t s.
Proof.
  intros t u z s. unfold recorded_size. cbn [x_sizes with_sizes]. rewrite size_of_set.
  destruct (String.eqb u t); reflexivity.
Qed.

Lemma u64_small : forall z, 0 <= z < 2 ^ 64 -> u64 z = z.
Proof. intros z H. unfold u64. apply Z.mod_small. exact H. Qed.

Ltac same_size S R :=
  eapply sized_same;
  [ exact S | exact R | | reflexivity | eassumption | reflexivity | cbn [due]; lia
  | cbn [transfers transfer_size]; try tauto; auto ].

Lemma sized_step : forall t past e s s',
  sized t past s -> bytes_bounded t (past ++ [e]) -> peaceful e s ->
  step e s = Went s' -> sized t (past ++ [e]) s'.
Proof.
  intros t past e s s' S HB (Hu & Hone & Hins) Hstep.
  pose proof (recorded_step e s s' (sz_known _ _ _ S) Hstep) as R.
  assert (Hbytes : match e with Save _ _ _ _ | Crash _ _ => True
                   | _ => bytes t 0 (past ++ [e]) = bytes t 0 past end).
  { destruct e; try exact I; rewrite bytes_app; reflexivity. }
  assert (Hlim : bytes t 0 past < 2 ^ 64) by exact (HB past [e] eq_refl).
  destruct e; unfold step, begin_transfers, restart in Hstep; cbv zeta in Hstep.
  - (* Save *)
    branch Hstep. apply is_free_spec in E. cbn [unsigned] in Hu.
    eapply sized_same; [exact S | exact R | | reflexivity | exact E | reflexivity | |];
      cbn [due transfers]; [|destruct (String.eqb t0 t); lia | tauto].
    rewrite bytes_app. cbn [bytes]. destruct (String.eqb t0 t); lia.
  - branch Hstep. pose proof (sz_due _ _ _ S _ _ E) as Hd.
    eapply sized_same; [exact S | exact R | | reflexivity | exact E | reflexivity | |];
      cbn [due transfers] in *; [|exact Hd|tauto].
    rewrite Hbytes. lia.
  - branch Hstep. apply andb_true_iff in E. destruct E as [E _]. apply is_free_spec in E.
    same_size S R. rewrite Hbytes. cbn [due]. lia.
  - branch Hstep. apply andb_true_iff in E. destruct E as [E _]. apply is_free_spec in E.
    same_size S R. rewrite Hbytes. cbn [due]. lia.
  - branch Hstep; apply andb_true_iff in E; destruct E as [E _]; apply is_free_spec in E;
      same_size S R; rewrite Hbytes; cbn [due]; lia.
  - branch Hstep. destruct S as [S1 S2 S3 S4 S5 S6].
    constructor; try assumption. rewrite Hbytes. exact S2.
  - (* Clear *)
    branch Hstep.
    assert (Hw : forall i a, nth_error (x_tasks s) i = Some a -> ~ transfers t a).
    { intros i a Hi. exact (not_holding t a (write_free_spec _ _ _ E Hi)). }
    destruct S as [S1 S2 S3 S4 S5 S6].
    constructor; cbn [x_tasks]; try assumption.
    + unfold recorded_size in *. cbn [x_sizes]. rewrite size_of_remove.
      destruct (String.eqb t0 t); [lia|]. exact S1.
    + rewrite Hbytes. unfold recorded_size in *. cbn [x_sizes]. rewrite size_of_remove.
      destruct (String.eqb t0 t); [|exact S2]. lia.
    + intros i a Hi Ha. destruct (Hw i a Hi Ha).
  - (* Go *)
    unfold go in Hstep. destruct (nth_error (x_tasks s) i) as [[|u z|l w]|] eqn:Ei;
      try discriminate.
    pose proof (sz_due _ _ _ S _ _ Ei) as Hd.
    pose proof (due_le_all t _ _ _ (sz_due _ _ _ S) Ei) as Hle.
    destruct w as [u z|u z|u z|u|p todo for_].
    + branch Hstep;
        (eapply sized_same; [exact S | exact R | | reflexivity | exact Ei | reflexivity | |];
         cbn [due transfers] in *; [rewrite Hbytes; lia | exact Hd | tauto]).
    + (* Inserting *)
      pose proof (Hins _ _ _ Ei) as Hnone.
      branch Hstep.
      eapply sized_same; [exact S | exact R | | | exact Ei | reflexivity | |];
         cbn [due transfers] in *; [rewrite Hbytes; lia | | exact Hd | tauto].
      unfold set_task, recorded_size. cbn [x_sizes with_sizes]. rewrite size_of_set.
      destruct (String.eqb u t) eqn:Et; [|reflexivity].
      apply String.eqb_eq in Et. subst u. rewrite Hnone. reflexivity.
    + (* Adding *)
      branch Hstep. destruct (String.eqb u t) eqn:Et.
      * pose proof Et as Et'. apply String.eqb_eq in Et'. subst u.
        destruct S as [S1 S2 S3 S4 S5 S6].
        cbn [due] in *. rewrite Et in *.
        assert (Ec : recorded_size t s = z0) by (unfold recorded_size; rewrite E; reflexivity).
        assert (Eu : u64 (z0 + z) = z0 + z) by (apply u64_small; lia).
        rewrite Eu in *.
        match goal with |- sized _ _ ?x => set (s1 := x) end.
        assert (En : recorded_size t s1 = z0 + z).
        { subst s1. unfold recorded_size, set_task, with_sizes. cbn [x_sizes].
          rewrite size_of_set, Et. reflexivity. }
        constructor.
        -- rewrite En. lia.
        -- rewrite En, Hbytes. subst s1. cbn [x_tasks set_task with_sizes].
           rewrite (all_due_set _ _ _ _ _ Ei). cbn [due]. rewrite Et. lia.
        -- intros j c Hj. subst s1. cbn [x_tasks set_task with_sizes] in Hj. apply nth_set in Hj.
           destruct Hj as [(-> & -> & _)|(Nj & Hj)]; [cbn [due]; lia | exact (S3 j c Hj)].
        -- intros j k c d Hj Hk Tc Td. subst s1. cbn [x_tasks set_task with_sizes] in Hj, Hk.
           apply nth_set in Hj, Hk.
           destruct Hj as [(-> & -> & _)|(Nj & Hj)], Hk as [(-> & -> & _)|(Nk & Hk)];
             try contradiction. exact (S4 j k c d Hj Hk Tc Td).
        -- intros j c Hj Tc. rewrite En. subst s1. cbn [x_tasks set_task with_sizes] in Hj.
           apply nth_set in Hj.
           destruct Hj as [(-> & -> & _)|(Nj & Hj)]; [contradiction|].
           pose proof (S5 j c Hj Tc). lia.
        -- exact R.
      * eapply sized_same; [exact S | exact R | | | exact Ei | reflexivity | |];
          cbn [due transfers] in *; [rewrite Et, Hbytes; lia | | lia | tauto].
        unfold recorded_size, set_task, with_sizes. cbn [x_sizes].
        rewrite size_of_set, Et. reflexivity.
    + branch Hstep; same_size S R; rewrite Hbytes; cbn [due]; lia.
    + destruct p as [|u|u z|u z rows|u z|u z]; unfold transfer_step, finish, fail in Hstep;
        cbv zeta in Hstep.
      * branch Hstep; same_size S R; rewrite Hbytes; cbn [due]; lia.
      * (* Begin *)
        branch Hstep; [same_size S R; rewrite Hbytes; cbn [due]; lia|].
        destruct (String.eqb u t) eqn:Et.
        -- apply String.eqb_eq in Et. subst u.
           assert (Hb : forall j a, nth_error (x_tasks s) j = Some a -> ~ transfers t a).
           { intros j a Hj. exact (Hone _ _ _ _ Ei a (nth_error_In _ _ Hj)). }
           assert (Ec : recorded_size t s = z) by (unfold recorded_size; rewrite E0; reflexivity).
           destruct S as [S1 S2 S3 S4 S5 S6].
           constructor; cbn [x_tasks set_task].
           ++ exact S1.
           ++ rewrite Hbytes, (all_due_set _ _ _ _ _ Ei).
              change (recorded_size t s + (all_due t (x_tasks s) - 0 + 0) <= bytes t 0 past). lia.
           ++ intros j c Hj. apply nth_set in Hj.
              destruct Hj as [(-> & -> & _)|(Nj & Hj)]; [cbn [due]; lia | exact (S3 j c Hj)].
           ++ intros j k c d Hj Hk Tc Td. apply nth_set in Hj, Hk.
              destruct Hj as [(-> & -> & _)|(Nj & Hj)], Hk as [(-> & -> & _)|(Nk & Hk)].
              ** reflexivity.
              ** destruct (Hb _ _ Hk Td).
              ** destruct (Hb _ _ Hj Tc).
              ** destruct (Hb _ _ Hj Tc).
           ++ intros j c Hj Tc. apply nth_set in Hj.
              destruct Hj as [(-> & -> & _)|(Nj & Hj)]; [|destruct (Hb _ _ Hj Tc)].
              cbn [transfer_size]. change (0 <= z <= recorded_size t s). lia.
           ++ exact R.
        -- eapply sized_same; [exact S | exact R | | reflexivity | exact Ei | reflexivity | |];
             cbn [due transfers]; [rewrite Hbytes; lia | lia |].
           intros ->. rewrite String.eqb_refl in Et. discriminate.
      * branch Hstep; same_size S R; rewrite Hbytes; cbn [due]; lia.
      * branch Hstep; same_size S R; rewrite Hbytes; cbn [due]; lia.
      * branch Hstep; same_size S R; rewrite Hbytes; cbn [due]; lia.
      * (* Truncated *)
        branch Hstep. destruct (String.eqb u t) eqn:Et.
        -- pose proof Et as Et'. apply String.eqb_eq in Et'. subst u.
           destruct S as [S1 S2 S3 S4 S5 S6].
           pose proof (S5 _ _ Ei eq_refl) as Hp. cbn [transfer_size] in Hp.
           assert (Ec : recorded_size t s = z0) by (unfold recorded_size; rewrite E; reflexivity).
           cbn [due] in *.
           assert (Eu : u64 (z0 - z) = z0 - z) by (apply u64_small; lia).
           rewrite Eu in *.
           match goal with |- sized _ _ ?x => set (s1 := x) end.
           assert (En : recorded_size t s1 = z0 - z).
           { subst s1. unfold recorded_size, set_task, with_sizes. cbn [x_sizes].
             rewrite size_of_set, Et. reflexivity. }
           assert (Hno : forall j c, nth_error (x_tasks s1) j = Some c -> ~ transfers t c).
           { intros j c Hj Tc. subst s1. cbn [x_tasks set_task with_sizes] in Hj.
             apply nth_set in Hj.
             destruct Hj as [(-> & -> & _)|(Nj & Hj)]; [contradiction|].
             apply Nj. exact (S4 j i c _ Hj Ei Tc eq_refl). }
           constructor.
           ++ rewrite En. lia.
           ++ rewrite En, Hbytes. subst s1. cbn [x_tasks set_task with_sizes].
              rewrite (all_due_set _ _ _ _ _ Ei). cbn [due]. lia.
           ++ intros j c Hj. subst s1. cbn [x_tasks set_task with_sizes] in Hj.
              apply nth_set in Hj.
              destruct Hj as [(-> & -> & _)|(Nj & Hj)]; [cbn [due]; lia | exact (S3 j c Hj)].
           ++ intros j k c d Hj Hk Tc Td. destruct (Hno _ _ Hj Tc).
           ++ intros j c Hj Tc. destruct (Hno _ _ Hj Tc).
           ++ exact R.
        -- eapply sized_same; [exact S | exact R | | | exact Ei | reflexivity | |];
             cbn [due transfers] in *; [rewrite Hbytes; lia | | lia | tauto].
           unfold recorded_size, set_task, with_sizes. cbn [x_sizes].
           rewrite size_of_set, Et. reflexivity.
  - (* Crash *)
    branch Hstep. apply andb_true_iff in E. destruct E as [_ E].
    assert (Hz : forall z, size_of t sizes = Some z -> 0 <= z).
    { rewrite forallb_forall in E. intros z Hz. clear -E Hz.
      induction sizes as [|[k y] m IH]; cbn [size_of] in Hz; [discriminate|].
      destruct (String.eqb k t).
      - injection Hz as <-. specialize (E (k, y) (or_introl eq_refl)). cbn [snd] in E. lia.
      - apply IH; [|exact Hz]. intros x Hx. apply E. right. exact Hx. }
    assert (Hno : forall j c,
              nth_error match x_tasks s with [] => []
                        | _ :: l => Holds Exclusive (Transfers Next todo Report)
                                    :: map (fun _ => Free) l end j = Some c ->
              ~ transfers t c /\ due t c = 0).
    { intros j c Hj. tasks_cases; subst; split; try reflexivity; tauto. }
    constructor; cbn [x_tasks].
    + unfold recorded_size. cbn [x_sizes]. destruct (size_of t sizes) eqn:Es; [auto|lia].
    + rewrite bytes_app. cbn [bytes]. unfold recorded_size. cbn [x_sizes].
      assert (Ed : forall (l : list task) w, due t w = 0 ->
                all_due t match l with [] => [] | _ :: l => w :: map (fun _ => Free) l end = 0).
      { intros [|a l] w Hw; [reflexivity|]. cbn [all_due fold_right]. rewrite Hw.
        fold (all_due t (map (fun _ : task => Free) l)). rewrite all_due_free. reflexivity. }
      rewrite Ed by reflexivity. lia.
    + intros j c Hj. rewrite (proj2 (Hno j c Hj)). lia.
    + intros j k c d Hj Hk Tc. destruct (proj1 (Hno j c Hj) Tc).
    + intros j c Hj Tc. destruct (proj1 (Hno j c Hj) Tc).
    + exact R.
Qed.

Lemma sized_start : forall t n batch, sized t [] (start n batch).
Proof.
  intros t n batch.
  assert (Hf : forall j c, nth_error (x_tasks (start n batch)) j = Some c -> c = Free)
    by (intros j c Hj; exact (start_tasks n j c Hj)).
  assert (Hd : all_due t (x_tasks (start n batch)) = 0).
  { cbn [start x_tasks]. clear. induction n as [|n IH]; [reflexivity|]. cbn. exact IH. }
  constructor.
  - cbn. lia.
  - rewrite Hd. cbn. lia.
  - intros j c Hj. apply Hf in Hj. subst. cbn. lia.
  - intros j k c d Hj Hk Tc. apply Hf in Hj. subst. contradiction.
  - intros j c Hj Tc. apply Hf in Hj. subst. contradiction.
  - intros u j c Hj Hc. apply Hf in Hj. subst. contradiction.
Qed.

Lemma sized_run : forall n batch events s t,
  run events (start n batch) = Went s ->
  along peaceful events (start n batch) ->
  bytes_bounded t events ->
  sized t events s.
Proof.
  intros n batch events s t Hr Ha Hb.
  refine (run_invariant peaceful (fun past s => bytes_bounded t past -> sized t past s) _
            events [] _ _ (fun _ => sized_start t n batch) Ha Hr Hb).
  intros past e s0 s1 HI He Hs Hb1.
  exact (sized_step t past e s0 s1 (HI (bounded_prefix _ _ _ Hb1)) Hb1 He Hs).
Qed.

Theorem size_bounded : forall n batch events s t,
  run events (start n batch) = Went s ->
  along unsigned events (start n batch) ->
  along one_transfer_at_a_time events (start n batch) ->
  along no_insert_race events (start n batch) ->
  bytes_bounded t events ->
  0 <= recorded_size t s <= bytes t 0 events.
Proof.
  intros n batch events s t Hr H1 H2 H3 Hb.
  pose proof (sized_run n batch events s t Hr
                (along_and _ _ _ _ H1 (along_and _ _ _ _ H2 H3)) Hb) as S.
  split; [exact (sz_low _ _ _ S)|].
  pose proof (sz_high _ _ _ S).
  assert (0 <= all_due t (x_tasks s)).
  { pose proof (sz_due _ _ _ S) as Hd. clear -Hd.
    induction (x_tasks s) as [|a l IH]; cbn [all_due fold_right]; [lia|].
    pose proof (Hd 0%nat a eq_refl).
    enough (0 <= fold_right (fun a0 n => due t a0 + n) 0 l) by lia.
    apply IH. intros j b Hj. exact (Hd (S j) b Hj). }
  lia.
Qed.

(** ** Tables of at least the batch size are transferred (C32) *)

(** With [strict] a table is to be transferred at the batch size, otherwise above it. *)
Definition over (strict : bool) (b z : Z) : bool := if strict then b <=? z else b <? z.

(** Task [a] will see to it that table [t] of recorded size [z] is no longer [too_large]. *)
Definition covers (too_large : Z -> bool) (t : string) (z : Z) (a : task) : Prop :=
  match a with
  | Holds _ (Checking k) => k = t
  | Holds _ (Transfers p todo _) =>
      In t todo \/ match p with
                   | Begin k => k = t
                   | Started k y | Scanned k y _ | Written k y | Truncated k y =>
                       k = t /\ too_large (z - y) = false
                   | Next => False
                   end
  | _ => False
  end.

Record covered (strict : bool) (s : state) : Prop := {
  cv_batch : forall b t z,
    x_batch s = Some b -> over strict b 0 = false -> size_of t (x_sizes s) = Some z ->
    mem t (x_dropped s) = false -> over strict b z = true ->
    exists i a, nth_error (x_tasks s) i = Some a /\ covers (over strict b) t z a;
  cv_new : forall i l p todo v,
    nth_error (x_tasks s) i = Some (Holds l (Transfers p todo (Set_batch (Some v)))) ->
    strict = false /\ 0 <= v /\ l = Exclusive
    /\ forall t z, size_of t (x_sizes s) = Some z -> mem t (x_dropped s) = false -> v < z ->
       covers (over false v) t z (Holds l (Transfers p todo (Set_batch (Some v))));
  cv_alone : forall i j a b, nth_error (x_tasks s) i = Some a -> nth_error (x_tasks s) j = Some b ->
    holds_exclusive a = true -> holds b = true -> i = j;
  cv_some : x_tasks s <> [] }.

Definition steady (strict : bool) (e : event) (s : state) : Prop :=
  peaceful e s /\ no_failure e s /\ (strict = true -> no_new_batch_size e s).

Lemma set_nth_some : forall A i (b : A) l, l <> [] -> set_nth i b l <> [].
Proof. intros A [|i] b [|c l] H; cbn; congruence. Qed.

Definition set_purpose (a : task) : option Z :=
  match a with Holds _ (Transfers _ _ (Set_batch (Some v))) => Some v | _ => None end.

Lemma exclusive_holds : forall a, holds_exclusive a = true -> holds a = true.
Proof. intros [|u z|[] w] H; cbn in *; congruence. Qed.

(** Task [i] goes from [a] to [b]; sizes, dropped tables and batch size stay as they are. *)
Lemma covered_same : forall strict s s' i a b,
  covered strict s ->
  nth_error (x_tasks s) i = Some a -> x_tasks s' = set_nth i b (x_tasks s) ->
  x_sizes s' = x_sizes s -> x_dropped s' = x_dropped s -> x_batch s' = x_batch s ->
  (* What [a] covers and still is too large [b] covers. *)
  (forall bt t z, x_batch s = Some bt -> over strict bt 0 = false ->
     size_of t (x_sizes s) = Some z -> mem t (x_dropped s) = false -> over strict bt z = true ->
     covers (over strict bt) t z a -> covers (over strict bt) t z b) ->
  (forall l p todo v, b = Holds l (Transfers p todo (Set_batch (Some v))) ->
     strict = false /\ 0 <= v /\ l = Exclusive
     /\ forall t z, size_of t (x_sizes s) = Some z -> mem t (x_dropped s) = false -> v < z ->
        covers (over false v) t z b) ->
  (* Locks are only taken when they are free. *)
  (forall j c, j <> i -> nth_error (x_tasks s) j = Some c ->
     (holds_exclusive b = true -> holds c = false)
     /\ (holds b = true -> holds_exclusive c = false)) ->
  covered strict s'.
Proof.
  intros strict s s' i a b [C1 C2 C3 C4] Ea Et Es Ed Eb Hcov Hset Hlock.
  constructor.
  - intros bt t z. rewrite Et, Es, Ed, Eb. intros Hb H0 Hz Hd Ho.
    destruct (C1 bt t z Hb H0 Hz Hd Ho) as (j & c & Hj & Hc).
    destruct (Nat.eq_dec j i) as [->|Nj].
    + rewrite Ea in Hj. injection Hj as <-. exists i, b.
      split; [exact (nth_set_same _ _ _ _ _ Ea) | exact (Hcov bt t z Hb H0 Hz Hd Ho Hc)].
    + exists j, c. split; [rewrite nth_set_other by exact Nj; exact Hj | exact Hc].
  - intros j l p todo v. rewrite Et, Es, Ed. intros Hj. apply nth_set in Hj.
    destruct Hj as [(-> & E & _)|(Nj & Hj)]; [|exact (C2 j l p todo v Hj)].
    rewrite E. exact (Hset l p todo v (eq_sym E)).
  - intros j k c d. rewrite Et. intros Hj Hk Hc Hd. apply nth_set in Hj, Hk.
    destruct Hj as [(-> & -> & _)|(Nj & Hj)], Hk as [(-> & -> & _)|(Nk & Hk)].
    + reflexivity.
    + rewrite (proj1 (Hlock k d Nk Hk) Hc) in Hd. discriminate.
    + rewrite (proj2 (Hlock j c Nj Hj) Hd) in Hc. discriminate.
    + exact (C3 j k c d Hj Hk Hc Hd).
  - rewrite Et. apply set_nth_some. exact C4.
Qed.

(** A task keeps the lock it holds. *)
Lemma lock_kept : forall strict s i l w w',
  covered strict s -> nth_error (x_tasks s) i = Some (Holds l w) ->
  forall j c, j <> i -> nth_error (x_tasks s) j = Some c ->
  (holds_exclusive (Holds l w') = true -> holds c = false)
  /\ (holds (Holds l w') = true -> holds_exclusive c = false).
Proof.
  intros strict s i l w w' C Hi j c Nj Hj. split.
  - intros Hl. destruct (holds c) eqn:Hc; [|reflexivity]. exfalso. apply Nj. symmetry.
    refine (cv_alone _ _ C i j _ _ Hi Hj _ Hc). destruct l; [discriminate | reflexivity].
  - intros _. destruct (holds_exclusive c) eqn:Hc; [|reflexivity]. exfalso. apply Nj.
    exact (cv_alone _ _ C j i _ _ Hj Hi Hc eq_refl).
Qed.

Lemma lock_freed : forall (s : state) (i : nat),
  forall j c, j <> i -> nth_error (x_tasks s) j = Some c ->
  (holds_exclusive Free = true -> holds c = false)
  /\ (holds Free = true -> holds_exclusive c = false).
Proof. intros. split; discriminate. Qed.

(** When task [i] changes the size of [u], no other task holds the write lock. *)
Lemma other_purpose : forall strict s i l w j l' p todo v,
  covered strict s -> nth_error (x_tasks s) i = Some (Holds l w) -> j <> i ->
  nth_error (x_tasks s) j = Some (Holds l' (Transfers p todo (Set_batch (Some v)))) -> False.
Proof.
  intros strict s i l w j l' p todo v C Hi Nj Hj.
  destruct (cv_new _ _ C _ _ _ _ _ Hj) as (_ & _ & El & _). subst l'.
  apply Nj. exact (cv_alone _ _ C j i _ _ Hj Hi eq_refl eq_refl).
Qed.

Lemma over_sub : forall strict b z y, 0 <= y -> over strict b z = false -> over strict b (z - y) = false.
Proof. intros [] b z y Hy H; cbn [over] in *; lia. Qed.

Lemma over_zero : forall b, 0 <= b -> over false b 0 = false.
Proof. intros b H. cbn [over]. lia. Qed.

Lemma covered_step : forall strict past e s s',
  covered strict s -> (forall t, sized t past s) ->
  (forall t, bytes_bounded t (past ++ [e])) -> steady strict e s ->
  step e s = Went s' -> covered strict s'.
Proof.
  intros strict past e s s' C HS HB ((Hu & Hone & Hins) & Hok & Hnew) Hstep.
  assert (Hlim : forall t, bytes t 0 past < 2 ^ 64) by (intros t; exact (HB t past [e] eq_refl)).
  destruct e; unfold step, begin_transfers, restart in Hstep; cbv zeta in Hstep.
  - (* Save *)
    branch Hstep. apply is_free_spec in E.
    eapply covered_same; [exact C | exact E | reflexivity | reflexivity | reflexivity | reflexivity | cbn; tauto | discriminate |].
    intros; split; discriminate.
  - (* Acquire *)
    branch Hstep.
    eapply covered_same; [exact C | exact E | reflexivity | reflexivity | reflexivity | reflexivity | cbn; tauto | discriminate |].
    intros j c Nj Hj. split; [discriminate|]. intros _. exact (read_free_spec _ _ _ E1 Hj).
  - (* Transfer_all *)
    branch Hstep. apply andb_true_iff in E. destruct E as [E Er]. apply is_free_spec in E.
    eapply covered_same; [exact C | exact E | reflexivity | reflexivity | reflexivity | reflexivity | cbn; tauto | discriminate |].
    intros j c Nj Hj. split; [discriminate|]. intros _. exact (read_free_spec _ _ _ Er Hj).
  - (* Periodic_transfer *)
    branch Hstep. apply andb_true_iff in E. destruct E as [E Er]. apply is_free_spec in E.
    eapply covered_same; [exact C | exact E | reflexivity | reflexivity | reflexivity | reflexivity | cbn; tauto | discriminate |].
    intros j c Nj Hj. pose proof (write_free_spec _ _ _ Er Hj) as Hh. split; intros _; [exact Hh|].
    destruct (holds_exclusive c) eqn:Hc; [|reflexivity].
    rewrite (exclusive_holds _ Hc) in Hh. discriminate.
  - (* Set_batch_size *)
    assert (Hstrict : strict = false).
    { destruct strict; [destruct (Hnew eq_refl) | reflexivity]. }
    cbn [unsigned] in Hu.
    branch Hstep; apply andb_true_iff in E; destruct E as [E Er]; apply is_free_spec in E;
      (eapply covered_same; [exact C | exact E | reflexivity | reflexivity | reflexivity | reflexivity | cbn; tauto | |]);
      try (intros j c Nj Hj; pose proof (write_free_spec _ _ _ Er Hj) as Hh;
           split; intros _; [exact Hh|]; destruct (holds_exclusive c) eqn:Hc; [|reflexivity];
           rewrite (exclusive_holds _ Hc) in Hh; discriminate).
    + intros l p todo' w Eb. injection Eb as <- <- <- <-.
      split; [exact Hstrict|]. split; [exact Hu|]. split; [reflexivity|].
      intros t y Hy _ Ho. cbn [covers]. left.
      apply (proj2 (lists_tables_spec _ _ _ E1) t y Hy). lia.
    + discriminate.
  - (* Mark *)
    branch Hstep. destruct C as [C1 C2 C3 C4].
    assert (Hm : forall u, mem u (t :: x_dropped s) = false -> mem u (x_dropped s) = false).
    { intros u Hu'. unfold mem in *. cbn [existsb] in Hu'. apply orb_false_iff in Hu'. tauto. }
    constructor; cbn [x_tasks x_sizes x_dropped x_batch].
    + intros b u z Hb H0 Hz Hd Ho. exact (C1 b u z Hb H0 Hz (Hm u Hd) Ho).
    + intros i l p todo v Hi. destruct (C2 i l p todo v Hi) as (A1 & A2 & A3 & A4).
      split; [exact A1|]. split; [exact A2|]. split; [exact A3|].
      intros u z Hz Hd Ho. exact (A4 u z Hz (Hm u Hd) Ho).
    + exact C3.
    + exact C4.
  - (* Clear *)
    branch Hstep. destruct C as [C1 C2 C3 C4].
    constructor; cbn [x_tasks x_sizes x_dropped x_batch].
    + intros b u z Hb H0 Hz Hd Ho. rewrite size_of_remove in Hz. rewrite mem_filter in Hd.
      destruct (String.eqb t u); [discriminate|]. exact (C1 b u z Hb H0 Hz Hd Ho).
    + intros i l p todo v Hi. destruct (C2 i l p todo v Hi) as (A1 & A2 & A3 & A4).
      split; [exact A1|]. split; [exact A2|]. split; [exact A3|].
      intros u z Hz Hd Ho. rewrite size_of_remove in Hz. rewrite mem_filter in Hd.
      destruct (String.eqb t u); [discriminate|]. exact (A4 u z Hz Hd Ho).
    + exact C3.
    + exact C4.
  - (* Go *)
    cbn [no_failure] in Hok. subst ok.
    unfold go in Hstep. destruct (nth_error (x_tasks s) i) as [[|u z|l w]|] eqn:Ei;
      try discriminate.
    destruct w as [u z|u z|u z|u|p todo for_].
    + (* Looking *)
      branch Hstep; (eapply covered_same;
        [exact C | exact Ei | reflexivity | reflexivity | reflexivity | reflexivity | cbn; tauto | discriminate | exact (lock_kept _ _ _ _ _ _ C Ei)]).
    + (* Inserting *)
      pose proof (Hins _ _ _ Ei) as Hnone.
      branch Hstep. constructor; cbn [x_tasks x_sizes x_dropped x_batch set_task with_sizes].
      * intros b t y Hb H0 Hy Hd Ho. rewrite size_of_set in Hy.
        destruct (String.eqb u t) eqn:Et; [injection Hy as <-; congruence|].
        destruct (cv_batch _ _ C b t y Hb H0 Hy Hd Ho) as (j & c & Hj & Hc).
        exists j, c. split; [|exact Hc].
        rewrite nth_set_other; [exact Hj|]. intros ->. rewrite Ei in Hj. injection Hj as <-.
        exact Hc.
      * intros j l' p todo v Hj. apply nth_set in Hj.
        destruct Hj as [(_ & Ea & _)|(Nj & Hj)]; [discriminate|].
        destruct (other_purpose _ _ _ _ _ _ _ _ _ _ C Ei Nj Hj).
      * intros j k c d Hj Hk Hc Hd. apply nth_set in Hj, Hk.
        destruct Hj as [(-> & -> & _)|(Nj & Hj)], Hk as [(-> & -> & _)|(Nk & Hk)].
        -- reflexivity.
        -- exact (cv_alone _ _ C _ _ _ _ Ei Hk Hc Hd).
        -- exact (cv_alone _ _ C _ _ _ _ Hj Ei Hc Hd).
        -- exact (cv_alone _ _ C _ _ _ _ Hj Hk Hc Hd).
      * apply set_nth_some. exact (cv_some _ _ C).
    + (* Adding *)
      branch Hstep. constructor; cbn [x_tasks x_sizes x_dropped x_batch set_task with_sizes].
      * intros b t y Hb H0 Hy Hd Ho. rewrite size_of_set in Hy.
        destruct (String.eqb u t) eqn:Et.
        -- apply String.eqb_eq in Et. subst u. exists i, (Holds l (Checking t)).
           split; [exact (nth_set_same _ _ _ _ _ Ei) | reflexivity].
        -- destruct (cv_batch _ _ C b t y Hb H0 Hy Hd Ho) as (j & c & Hj & Hc).
           exists j, c. split; [|exact Hc].
           rewrite nth_set_other; [exact Hj|]. intros ->. rewrite Ei in Hj. injection Hj as <-.
           exact Hc.
      * intros j l' p todo v Hj. apply nth_set in Hj.
        destruct Hj as [(_ & Ea & _)|(Nj & Hj)]; [discriminate|].
        destruct (other_purpose _ _ _ _ _ _ _ _ _ _ C Ei Nj Hj).
      * intros j k c d Hj Hk Hc Hd. apply nth_set in Hj, Hk.
        destruct Hj as [(-> & -> & _)|(Nj & Hj)], Hk as [(-> & -> & _)|(Nk & Hk)].
        -- reflexivity.
        -- exact (cv_alone _ _ C _ _ _ _ Ei Hk Hc Hd).
        -- exact (cv_alone _ _ C _ _ _ _ Hj Ei Hc Hd).
        -- exact (cv_alone _ _ C _ _ _ _ Hj Hk Hc Hd).
      * apply set_nth_some. exact (cv_some _ _ C).
    + (* Checking *)
      branch Hstep.
      * eapply covered_same;
          [exact C | exact Ei | reflexivity | reflexivity | reflexivity | reflexivity | | discriminate | exact (lock_kept _ _ _ _ _ _ C Ei)].
        intros bt t y Hb H0 Hy Hd Ho Hc. cbn [covers] in *. right. exact Hc.
      * eapply covered_same;
          [exact C | exact Ei | reflexivity | reflexivity | reflexivity | reflexivity | | discriminate | exact (lock_freed s i)].
        intros bt t y Hb H0 Hy Hd Ho Hc. cbn [covers] in Hc. subst u.
        rewrite E in Hb. injection Hb as ->. rewrite Hy in E0. injection E0 as ->.
        destruct strict; cbn [over] in Ho; lia.
      * eapply covered_same;
          [exact C | exact Ei | reflexivity | reflexivity | reflexivity | reflexivity | | discriminate | exact (lock_freed s i)].
        intros bt t y Hb. rewrite E in Hb. discriminate.
    + (* Transfers *)
      destruct p as [|u|u z|u z rows|u z|u z]; unfold transfer_step, finish in Hstep;
        cbv zeta in Hstep.
      * (* Next *)
        destruct todo as [|u todo].
        -- destruct for_ as [|v|]; branch Hstep.
           ++ eapply covered_same;
                [exact C | exact Ei | reflexivity | reflexivity | reflexivity | reflexivity | cbn; tauto | discriminate | exact (lock_freed s i)].
           ++ (* the batch size is set *)
              constructor; cbn [x_tasks x_sizes x_dropped x_batch set_task].
              ** intros b t y -> H0 Hy Hd Ho.
                 destruct (cv_new _ _ C _ _ _ _ _ Ei) as (Es & Hv & _ & Hc). subst strict.
                 assert (Hlt : b < y) by (cbn [over] in Ho; lia).
                 destruct (Hc t y Hy Hd Hlt) as [[]|[]].
              ** intros j l' p todo v' Hj. apply nth_set in Hj.
                 destruct Hj as [(_ & Ea & _)|(Nj & Hj)]; [discriminate|].
                 exact (cv_new _ _ C _ _ _ _ _ Hj).
              ** intros j k c d Hj Hk Hc Hd. apply nth_set in Hj, Hk.
                 destruct Hj as [(-> & -> & _)|(Nj & Hj)], Hk as [(-> & -> & _)|(Nk & Hk)];
                   try discriminate.
                 exact (cv_alone _ _ C _ _ _ _ Hj Hk Hc Hd).
              ** apply set_nth_some. exact (cv_some _ _ C).
           ++ eapply covered_same;
                [exact C | exact Ei | reflexivity | reflexivity | reflexivity | reflexivity | cbn; tauto | discriminate | exact (lock_freed s i)].
        -- branch Hstep.
           eapply covered_same;
             [exact C | exact Ei | reflexivity | reflexivity | reflexivity | reflexivity | | | exact (lock_kept _ _ _ _ _ _ C Ei)].
           ++ intros. cbn [covers In] in *. tauto.
           ++ intros l' p' todo' v Eb. injection Eb as -> <- -> ->.
              destruct (cv_new _ _ C _ _ _ _ _ Ei) as (A1 & A2 & A3 & A4).
              split; [exact A1|]. split; [exact A2|]. split; [exact A3|].
              intros t y Hy Hd Ho. pose proof (A4 t y Hy Hd Ho) as Hc.
              cbn [covers In] in *. tauto.
      * (* Begin *)
        branch Hstep.
        -- eapply covered_same;
             [exact C | exact Ei | reflexivity | reflexivity | reflexivity | reflexivity | | | exact (lock_kept _ _ _ _ _ _ C Ei)].
           ++ intros bt t y Hb H0 Hy Hd Ho Hc. cbn [covers] in *.
              destruct Hc as [Hc|Hc]; [left; exact Hc|]. congruence.
           ++ intros l' p' todo' v Eb. injection Eb as -> <- -> ->.
              destruct (cv_new _ _ C _ _ _ _ _ Ei) as (A1 & A2 & A3 & A4).
              split; [exact A1|]. split; [exact A2|]. split; [exact A3|].
              intros t y Hy Hd Ho. destruct (A4 t y Hy Hd Ho) as [Hc|Hc].
              ** left. exact Hc.
              ** congruence.
        -- eapply covered_same;
             [exact C | exact Ei | reflexivity | reflexivity | reflexivity | reflexivity | | | exact (lock_kept _ _ _ _ _ _ C Ei)].
           ++ intros bt t y Hb H0 Hy Hd Ho Hc. cbn [covers] in *.
              destruct Hc as [Hc|Hc]; [left; exact Hc|]. right. split; [exact Hc|].
              subst u. rewrite Hy in E0. injection E0 as ->. rewrite Z.sub_diag. exact H0.
           ++ intros l' p' todo' v Eb. injection Eb as -> <- -> ->.
              destruct (cv_new _ _ C _ _ _ _ _ Ei) as (A1 & A2 & A3 & A4).
              split; [exact A1|]. split; [exact A2|]. split; [exact A3|].
              intros t y Hy Hd Ho. destruct (A4 t y Hy Hd Ho) as [Hc|Hc]; cbn [covers].
              ** left. exact Hc.
              ** right. split; [exact Hc|]. subst u. rewrite Hy in E0. injection E0 as ->.
                 rewrite Z.sub_diag. exact (over_zero v A2).
      * (* Started *)
        branch Hstep.
        eapply covered_same;
          [exact C | exact Ei | reflexivity | reflexivity | reflexivity | reflexivity | | | exact (lock_kept _ _ _ _ _ _ C Ei)].
        -- intros bt t y Hb H0 Hy Hd Ho Hc. exact Hc.
        -- intros l' p' todo' v Eb. injection Eb as -> <- -> ->.
           exact (cv_new _ _ C _ _ _ _ _ Ei).
      * (* Scanned *)
        branch Hstep.
        eapply covered_same;
          [exact C | exact Ei | reflexivity | reflexivity | reflexivity | reflexivity | | | exact (lock_kept _ _ _ _ _ _ C Ei)].
        -- intros bt t y Hb H0 Hy Hd Ho Hc. exact Hc.
        -- intros l' p' todo' v Eb. injection Eb as -> <- -> ->.
           exact (cv_new _ _ C _ _ _ _ _ Ei).
      * (* Written *)
        branch Hstep.
        eapply covered_same;
          [exact C | exact Ei | reflexivity | reflexivity | reflexivity | reflexivity | | | exact (lock_kept _ _ _ _ _ _ C Ei)].
        -- intros bt t y Hb H0 Hy Hd Ho Hc. exact Hc.
        -- intros l' p' todo' v Eb. injection Eb as -> <- -> ->.
           exact (cv_new _ _ C _ _ _ _ _ Ei).
      * (* Truncated *)
        branch Hstep.
        pose proof (sz_part _ _ _ (HS u) _ _ Ei eq_refl) as Hp. cbn [transfer_size] in Hp.
        assert (Ec : recorded_size u s = z0) by (unfold recorded_size; rewrite E; reflexivity).
        pose proof (sz_high _ _ _ (HS u)) as Hh. pose proof (Hlim u) as Hl.
        assert (Hall : 0 <= all_due u (x_tasks s)).
        { pose proof (due_le_all u _ _ _ (sz_due _ _ _ (HS u)) Ei). lia. }
        assert (Eu : u64 (z0 - z) = z0 - z) by (apply u64_small; lia).
        rewrite Eu in *.
        constructor; cbn [x_tasks x_sizes x_dropped x_batch set_task with_sizes].
        -- intros b t y Hb H0 Hy Hd Ho. rewrite size_of_set in Hy.
           destruct (String.eqb u t) eqn:Et.
           ++ apply String.eqb_eq in Et. subst u. injection Hy as <-.
              assert (Ho' : over strict b z0 = true).
              { destruct strict; cbn [over] in *; lia. }
              destruct (cv_batch _ _ C b t z0 Hb H0 E Hd Ho') as (j & c & Hj & Hc).
              destruct (Nat.eq_dec j i) as [->|Nj].
              ** rewrite Ei in Hj. injection Hj as <-. cbn [covers] in Hc.
                 destruct Hc as [Hc|[_ Hc]]; [|congruence].
                 exists i. eexists. split; [exact (nth_set_same _ _ _ _ _ Ei)|].
                 cbn [covers]. left. exact Hc.
              ** exists j, c. split; [rewrite nth_set_other by exact Nj; exact Hj|].
                 assert (Hn : ~ transfers t c).
                 { intros Tc. apply Nj. exact (sz_one _ _ _ (HS t) _ _ _ _ Hj Ei Tc eq_refl). }
                 destruct c as [|k y|l' [k y|k y|k y|k|p todo' for']]; try exact Hc.
                 cbn [covers transfers] in *. destruct Hc as [Hc|Hc]; [left; exact Hc|].
                 right. destruct p; tauto.
           ++ destruct (cv_batch _ _ C b t y Hb H0 Hy Hd Ho) as (j & c & Hj & Hc).
              destruct (Nat.eq_dec j i) as [->|Nj].
              ** rewrite Ei in Hj. injection Hj as <-. cbn [covers] in Hc.
                 destruct Hc as [Hc|[Hc _]];
                   [|subst u; rewrite String.eqb_refl in Et; discriminate].
                 exists i. eexists. split; [exact (nth_set_same _ _ _ _ _ Ei)|].
                 cbn [covers]. left. exact Hc.
              ** exists j, c. split; [rewrite nth_set_other by exact Nj; exact Hj | exact Hc].
        -- intros j l' p todo' v Hj. apply nth_set in Hj.
           destruct Hj as [(-> & Ea & _)|(Nj & Hj)].
           ++ injection Ea as -> -> -> <-.
              destruct (cv_new _ _ C _ _ _ _ _ Ei) as (A1 & A2 & A3 & A4).
              split; [exact A1|]. split; [exact A2|]. split; [exact A3|].
              intros t y Hy Hd Ho. rewrite size_of_set in Hy. cbn [covers]. left.
              destruct (String.eqb u t) eqn:Et.
              ** apply String.eqb_eq in Et. subst u. injection Hy as <-.
                 assert (Hlt : v < z0) by lia.
                 destruct (A4 t z0 E Hd Hlt) as [Hc|[_ Hc]]; [exact Hc|].
                 cbn [over] in Hc. lia.
              ** destruct (A4 t y Hy Hd Ho) as [Hc|[Hc _]]; [exact Hc|].
                 subst u. rewrite String.eqb_refl in Et. discriminate.
           ++ destruct (other_purpose _ _ _ _ _ _ _ _ _ _ C Ei Nj Hj).
        -- intros j k c d Hj Hk Hc Hd. apply nth_set in Hj, Hk.
           destruct Hj as [(-> & -> & _)|(Nj & Hj)], Hk as [(-> & -> & _)|(Nk & Hk)].
           ++ reflexivity.
           ++ exact (cv_alone _ _ C _ _ _ _ Ei Hk Hc Hd).
           ++ exact (cv_alone _ _ C _ _ _ _ Hj Ei Hc Hd).
           ++ exact (cv_alone _ _ C _ _ _ _ Hj Hk Hc Hd).
        -- apply set_nth_some. exact (cv_some _ _ C).
  - (* Crash *)
    branch Hstep. apply andb_true_iff in E. destruct E as [E _].
    pose proof (cv_some _ _ C) as Hne.
    destruct (x_tasks s) as [|a0 l0]; [congruence|].
    constructor; cbn [x_tasks x_sizes x_dropped x_batch].
    + intros b t z Hb H0 Hz _ Ho. eexists 0%nat, _. split; [reflexivity|]. cbn [covers]. left.
      apply (proj2 (lists_tables_spec _ _ _ E) t z Hz). rewrite Hb.
      destruct strict; cbn [over] in Ho; lia.
    + intros i l p todo' v Hi. apply (restart_tasks (a0 :: l0)) in Hi.
      destruct Hi as [(_ & Hi)|Hi]; discriminate.
    + intros j k a b Hj Hk Ha Hb.
      apply (restart_tasks (a0 :: l0)) in Hj. apply (restart_tasks (a0 :: l0)) in Hk.
      destruct Hj as [(-> & _)| ->]; [|discriminate].
      destruct Hk as [(-> & _)| ->]; [|discriminate]. reflexivity.
    + discriminate.
Qed.

Lemma covered_start : forall strict n batch, (0 < n)%nat -> covered strict (start n batch).
Proof.
  intros strict n batch Hn.
  assert (Hf : forall j c, nth_error (x_tasks (start n batch)) j = Some c -> c = Free)
    by (intros j c Hj; exact (start_tasks n j c Hj)).
  constructor.
  - intros b t z _ _ Hz. discriminate.
  - intros i l p todo v Hi. apply Hf in Hi. discriminate.
  - intros i j a b Hi Hj Ha. apply Hf in Hi. subst. discriminate.
  - destruct n; [lia|]. discriminate.
Qed.

Lemma covered_run : forall strict n batch events s,
  (0 < n)%nat ->
  run events (start n batch) = Went s ->
  along (steady strict) events (start n batch) ->
  (forall t, bytes_bounded t events) ->
  covered strict s.
Proof.
  intros strict n batch events s Hn Hr Ha Hb.
  refine (proj1 (run_invariant (steady strict)
            (fun past s => (forall t, bytes_bounded t past) ->
                           covered strict s /\ forall t, sized t past s) _
            events [] _ _ _ Ha Hr Hb)).
  - intros past e s0 s1 HI He Hs Hb1.
    destruct (HI (fun t => bounded_prefix _ _ _ (Hb1 t))) as [C S]. split.
    + exact (covered_step strict past e s0 s1 C S Hb1 He Hs).
    + intros t. exact (sized_step t past e s0 s1 (S t) (Hb1 t) (proj1 He) Hs).
  - intros _. split; [exact (covered_start strict n batch Hn) | exact (fun t => sized_start t n batch)].
Qed.

Lemma quiet_covers : forall f t z a, covers f t z a -> holds a = true.
Proof. intros f t z [|u y|l w] H; cbn in *; try contradiction. reflexivity. Qed.

Theorem small_when_quiet : forall strict n batch events s b t,
  (0 < n)%nat ->
  run events (start n batch) = Went s ->
  along unsigned events (start n batch) ->
  along one_transfer_at_a_time events (start n batch) ->
  along no_insert_race events (start n batch) ->
  along no_failure events (start n batch) ->
  (strict = true -> along no_new_batch_size events (start n batch)) ->
  (forall t, bytes_bounded t events) ->
  quiet s -> x_batch s = Some b -> 0 < b -> mem t (x_dropped s) = false ->
  over strict b (recorded_size t s) = false.
Proof.
  intros strict n batch events s b t Hn Hr H1 H2 H3 H4 H5 Hb Hq Eb Hpos Hd.
  assert (Ha : along (steady strict) events (start n batch)).
  { assert (Hp : along peaceful events (start n batch))
      by exact (along_and _ _ _ _ H1 (along_and _ _ _ _ H2 H3)).
    refine (along_and _ _ _ _ Hp (along_and _ _ _ _ H4 _)).
    destruct strict.
    - pose proof (H5 eq_refl) as H6. clear -H6. revert H6. generalize (start n batch).
      induction events as [|e events IH]; intros s0 H; [exact I|]. cbn [along] in *.
      destruct H as [He H]. split; [intros _; exact He|].
      destruct (step e s0); [apply IH; exact H | exact I | exact I].
    - clear. generalize (start n batch).
      induction events as [|e events IH]; intros s0; [exact I|]. cbn [along].
      split; [discriminate|]. destruct (step e s0); [apply IH | exact I | exact I]. }
  pose proof (covered_run strict n batch events s Hn Hr Ha Hb) as C.
  assert (H0 : over strict b 0 = false) by (destruct strict; cbn [over]; lia).
  destruct (over strict b (recorded_size t s)) eqn:Ho; [|reflexivity]. exfalso.
  unfold recorded_size in Ho. destruct (size_of t (x_sizes s)) as [z|] eqn:Ez; [|congruence].
  destruct (cv_batch _ _ C b t z Eb H0 Ez Hd Ho) as (i & a & Hi & Hc).
  apply quiet_covers in Hc.
  rewrite (Hq a (nth_error_In _ _ Hi)) in Hc. discriminate.
Qed.

Theorem below_batch_size : forall n batch events s b t,
  (0 < n)%nat ->
  run events (start n batch) = Went s ->
  along unsigned events (start n batch) ->
  along one_transfer_at_a_time events (start n batch) ->
  along no_insert_race events (start n batch) ->
  along no_failure events (start n batch) ->
  along no_new_batch_size events (start n batch) ->
  (forall t, bytes_bounded t events) ->
  quiet s -> x_batch s = Some b -> 0 < b -> mem t (x_dropped s) = false ->
  recorded_size t s < b.
Proof.
  intros n batch events s b t Hn Hr H1 H2 H3 H4 H5 Hb Hq Eb Hpos Hd.
  pose proof (small_when_quiet true n batch events s b t Hn Hr H1 H2 H3 H4 (fun _ => H5) Hb Hq Eb
                Hpos Hd) as H. cbn [over] in H. lia.
Qed.

Theorem at_most_batch_size : forall n batch events s b t,
  (0 < n)%nat ->
  run events (start n batch) = Went s ->
  along unsigned events (start n batch) ->
  along one_transfer_at_a_time events (start n batch) ->
  along no_insert_race events (start n batch) ->
  along no_failure events (start n batch) ->
  (forall t, bytes_bounded t events) ->
  quiet s -> x_batch s = Some b -> 0 < b -> mem t (x_dropped s) = false ->
  recorded_size t s <= b.
Proof.
  intros n batch events s b t Hn Hr H1 H2 H3 H4 Hb Hq Eb Hpos Hd.
  assert (H5 : false = true -> along no_new_batch_size events (start n batch)) by discriminate.
  pose proof (small_when_quiet false n batch events s b t Hn Hr H1 H2 H3 H4 H5 Hb Hq Eb
                Hpos Hd) as H. cbn [over] in H. lia.
Qed.
