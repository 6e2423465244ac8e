(** Executions of the data transfer: cases of the theorems, and cases they exclude. *)
From Coq Require Import ZArith Bool String List Lia Permutation.
From Verif.Model Require Import Base Transfer.
From Verif.Spec Require Import TransferSpec.
From Verif.Proofs Require Import TransferProofs.
Import ListNotations.
Open Scope Z_scope.

(** ** Decision procedures for the circumstances *)

Definition transfersb (t : string) (a : task) : bool :=
  match a with
  | Holds _ (Transfers (Started k _ | Scanned k _ _ | Written k _ | Truncated k _) _ _) =>
      String.eqb k t
  | _ => false
  end.
Definition movesb (t : string) (a : task) : bool :=
  match a with
  | Holds _ (Transfers (Scanned k _ _ | Written k _) _ _) => String.eqb k t
  | _ => false
  end.
Definition writtenb (a : task) : bool :=
  match a with Holds _ (Transfers (Written _ _) _ _) => true | _ => false end.

Lemma transfersb_ok : forall t a, transfersb t a = false -> ~ transfers t a.
Proof.
  intros t [|k z|l [k z|k z|k z|k|[|k|k z|k z r|k z|k z] todo f]] H; cbn in *; try tauto;
    intros ->; rewrite String.eqb_refl in H; discriminate.
Qed.
Lemma movesb_ok : forall t a, movesb t a = false -> ~ moves t a.
Proof.
  intros t [|k z|l [k z|k z|k z|k|[|k|k z|k z r|k z|k z] todo f]] H; cbn in *; try tauto;
    intros ->; rewrite String.eqb_refl in H; discriminate.
Qed.
Lemma writtenb_ok : forall t a, writtenb a = false -> ~ has_written t a.
Proof.
  intros t [|k z|l [k z|k z|k z|k|[|k|k z|k z r|k z|k z] todo f]] H; cbn in *; try tauto;
    discriminate.
Qed.

Lemma none_of : forall (f : task -> bool) l a,
  existsb f l = false -> In a l -> f a = false.
Proof.
  intros f l a H Ha. destruct (f a) eqn:E; [|reflexivity].
  assert (existsb f l = true) by (apply existsb_exists; exists a; split; assumption).
  congruence.
Qed.

Definition calm_saves (e : event) (s : state) : bool :=
  match e with Save _ t _ _ => negb (existsb (movesb t) (x_tasks s)) | _ => true end.
Definition single_transfers (e : event) (s : state) : bool :=
  match e with
  | Go i _ => match nth_error (x_tasks s) i with
              | Some (Holds _ (Transfers (Begin t) _ _)) =>
                  negb (existsb (transfersb t) (x_tasks s))
              | _ => true
              end
  | _ => true
  end.
Definition truncations (e : event) (s : state) : bool :=
  match e with
  | Go i false => match nth_error (x_tasks s) i with Some a => negb (writtenb a) | None => true end
  | Crash _ _ => negb (existsb writtenb (x_tasks s))
  | _ => true
  end.
Definition single_inserts (e : event) (s : state) : bool :=
  match e with
  | Go i _ => match nth_error (x_tasks s) i with
              | Some (Holds _ (Inserting t _)) =>
                  match size_of t (x_sizes s) with None => true | Some _ => false end
              | _ => true
              end
  | _ => true
  end.
Definition successes (e : event) (_ : state) : bool := match e with Go _ false => false | _ => true end.
Definition same_batch (e : event) (_ : state) : bool :=
  match e with Set_batch_size _ _ _ => false | _ => true end.
Definition unsignedb (e : event) (_ : state) : bool :=
  match e with
  | Save _ _ _ size => 0 <=? size
  | Set_batch_size _ (Some v) _ => 0 <=? v
  | _ => true
  end.

Fixpoint alongb (p : event -> state -> bool) (events : list event) (s : state) : bool :=
  match events with
  | [] => true
  | e :: events => p e s && match step e s with Went s => alongb p events s | _ => true end
  end.

Lemma alongb_ok : forall (p : event -> state -> bool) (P : event -> state -> Prop),
  (forall e s, p e s = true -> P e s) ->
  forall events s, alongb p events s = true -> along P events s.
Proof.
  intros p P H events. induction events as [|e events IH]; intros s Hb; [exact I|].
  cbn [alongb along] in *. apply andb_true_iff in Hb. destruct Hb as [He Hb].
  split; [exact (H e s He)|]. destruct (step e s); [exact (IH _ Hb) | exact I | exact I].
Qed.

Lemma calm_saves_ok : forall e s, calm_saves e s = true -> no_save_while_moving e s.
Proof.
  intros [] s H; try exact I. cbn in *. apply negb_true_iff in H.
  intros a Ha. apply movesb_ok. exact (none_of _ _ _ H Ha).
Qed.
Lemma single_transfers_ok : forall e s, single_transfers e s = true -> one_transfer_at_a_time e s.
Proof.
  intros [] s H; try exact I. cbn in *. intros l t todo for_ Hi a Ha. rewrite Hi in H.
  apply negb_true_iff in H. apply transfersb_ok. exact (none_of _ _ _ H Ha).
Qed.
Lemma truncations_ok : forall e s, truncations e s = true -> truncates_what_is_written e s.
Proof.
  intros [] s H; try exact I; cbn in *.
  - destruct ok; [exact I|]. intros t a Ha. rewrite Ha in H. apply negb_true_iff in H.
    exact (writtenb_ok t a H).
  - apply negb_true_iff in H. intros t a Ha. apply writtenb_ok. exact (none_of _ _ _ H Ha).
Qed.
Lemma single_inserts_ok : forall e s, single_inserts e s = true -> no_insert_race e s.
Proof.
  intros [] s H; try exact I. cbn in *. intros l t size Hi. rewrite Hi in H.
  destruct (size_of t (x_sizes s)); [discriminate | reflexivity].
Qed.
Lemma successes_ok : forall e s, successes e s = true -> no_failure e s.
Proof. intros [] s H; try exact I. cbn in *. destruct ok; [reflexivity | discriminate]. Qed.
Lemma same_batch_ok : forall e s, same_batch e s = true -> no_new_batch_size e s.
Proof. intros [] s H; try exact I. discriminate. Qed.
Lemma unsignedb_ok : forall e s, unsignedb e s = true -> unsigned e s.
Proof.
  intros [] s H; try exact I; cbn in *; [lia|]. destruct v; [lia | exact I].
Qed.

(** Prefixes of a concrete list. *)
Fixpoint boundedb (t : string) (before : Z) (events : list event) : bool :=
  (before <? 2 ^ 64)
  && match events with
     | [] => true
     | e :: events => boundedb t (bytes t before [e]) events
     end.

Lemma boundedb_ok : forall t events b, boundedb t b events = true ->
  forall past future, events = past ++ future -> bytes t b past < 2 ^ 64.
Proof.
  intros t events. induction events as [|e events IH]; intros b H past future E;
    cbn [boundedb] in H; apply andb_true_iff in H; destruct H as [Hb H].
  - destruct past; [|discriminate]. cbn [bytes]. lia.
  - destruct past as [|e' past]; [cbn [bytes]; lia|].
    injection E as <- ->.
    replace (bytes t b (e :: past)) with (bytes t (bytes t b [e]) past)
      by (destruct e; reflexivity).
    exact (IH _ H past future eq_refl).
Qed.

(** ** Executions *)

Open Scope string_scope.
Open Scope list_scope.

(** A client and the writer thread save rows of "wind"; the second save reaches the batch size
    and transfers the table.  Then rows are saved again. *)
Definition history : list event :=
  [Save 0 "wind" [1; 2] 60; Acquire 0; Go 0 true; Go 0 true; Go 0 true; Go 0 true;
   Save 1 "wind" [3] 50; Acquire 1; Go 1 true; Go 1 true; Go 1 true;
   Go 1 true; Go 1 true; Go 1 true; Go 1 true; Go 1 true; Go 1 true;
   Save 0 "wind" [4] 70; Acquire 0; Go 0 true; Go 0 true; Go 0 true].

(** The same with a crash and a failed write to the remote table before the transfer is done. *)
Definition history_crash : list event :=
  [Save 0 "wind" [1; 2] 60; Acquire 0; Go 0 true; Go 0 true; Go 0 true; Go 0 true;
   Save 1 "wind" [3] 50; Acquire 1; Go 1 true; Go 1 true; Go 1 true;
   Go 1 true; Go 1 true; Go 1 false;
   Crash [("wind", 112)] ["wind"]; Go 0 true; Go 0 true; Go 0 true; Go 0 true; Go 0 true;
   Go 0 true; Go 0 true;
   Save 0 "wind" [4] 70].

(** The writer thread saves row 3 between the scan and the truncation of a transfer. *)
Definition history_loss : list event :=
  [Save 0 "wind" [1; 2] 120; Acquire 0; Go 0 true; Go 0 true; Go 0 true; Go 0 true;
   Go 0 true; Go 0 true;
   Save 1 "wind" [3] 50;
   Go 0 true; Go 0 true; Go 0 true; Go 0 true].

(** A crash between the write to the remote table and the truncation. *)
Definition history_duplicate : list event :=
  [Save 0 "wind" [1; 2] 120; Acquire 0; Go 0 true; Go 0 true; Go 0 true; Go 0 true;
   Go 0 true; Go 0 true; Go 0 true;
   Crash [("wind", 120)] ["wind"]; Go 0 true; Go 0 true; Go 0 true; Go 0 true; Go 0 true;
   Go 0 true; Go 0 true].

(** Two tasks transfer the table at the same time: the writer thread because the batch size is
    reached, and a client that requests it. *)
Definition history_overlap : list event :=
  [Save 0 "wind" [1; 2] 120; Acquire 0; Go 0 true; Go 0 true; Go 0 true; Go 0 true;
   Transfer_all 1 ["wind"]; Go 1 true; Go 1 true; Go 0 true;
   Go 1 true; Go 0 true; Go 0 true; Go 1 true; Go 0 true; Go 1 true; Go 0 true; Go 1 true;
   Go 0 true; Go 1 true].

(** The batch size is set to the recorded size of a table. *)
Definition history_equal : list event :=
  [Save 0 "wind" [1; 2] 60; Acquire 0; Go 0 true; Go 0 true; Go 0 true; Go 0 true;
   Set_batch_size 0 (Some 60) []; Go 0 true].

(** A table is marked as dropped, saved, and not transferred though it is large. *)
Definition history_dropped : list event :=
  [Save 0 "wind" [1; 2] 60; Acquire 0; Go 0 true; Go 0 true; Go 0 true; Go 0 true;
   Mark "wind"; Save 1 "wind" [3] 60; Acquire 1; Go 1 true; Go 1 true; Go 1 true; Go 1 true;
   Go 1 true].

Definition state_of (r : result) : state :=
  match r with Went s => s | _ => start 0 None end.
Definition went (r : result) : bool := match r with Went _ => true | _ => false end.

Lemma went_ok : forall r, went r = true -> r = Went (state_of r).
Proof. intros [s| |] H; [reflexivity | discriminate | discriminate]. Qed.

Lemma history_case :
  exists s, run history (start 2 (Some 100)) = Went s
    /\ along no_save_while_moving history (start 2 (Some 100))
    /\ along one_transfer_at_a_time history (start 2 (Some 100))
    /\ along truncates_what_is_written history (start 2 (Some 100))
    /\ (forall a, In a (x_tasks s) -> ~ has_written "wind" a)
    /\ saved "wind" history = [1; 2; 3; 4]
    /\ x_local s "wind" = [4] /\ x_remote s "wind" = [1; 2; 3].
Proof.
  eexists. split; [apply went_ok; vm_compute; reflexivity|].
  split; [apply (alongb_ok _ _ calm_saves_ok); vm_compute; reflexivity|].
  split; [apply (alongb_ok _ _ single_transfers_ok); vm_compute; reflexivity|].
  split; [apply (alongb_ok _ _ truncations_ok); vm_compute; reflexivity|].
  split.
  - intros a Ha. apply writtenb_ok. revert Ha. apply none_of. vm_compute. reflexivity.
  - vm_compute. repeat split.
Qed.

Lemma crash_case :
  exists s, run history_crash (start 2 (Some 100)) = Went s
    /\ along no_save_while_moving history_crash (start 2 (Some 100))
    /\ saved "wind" history_crash = [1; 2; 3; 4]
    /\ x_local s "wind" = [4] /\ x_remote s "wind" = [1; 2; 3].
Proof.
  eexists. split; [apply went_ok; vm_compute; reflexivity|].
  split; [apply (alongb_ok _ _ calm_saves_ok); vm_compute; reflexivity|].
  vm_compute. repeat split.
Qed.

Lemma loss_case :
  exists s, run history_loss (start 2 (Some 100)) = Went s
    /\ along one_transfer_at_a_time history_loss (start 2 (Some 100))
    /\ along no_failure history_loss (start 2 (Some 100))
    /\ In 3 (saved "wind" history_loss) /\ ~ In 3 (x_local s "wind" ++ x_remote s "wind").
Proof.
  eexists. split; [apply went_ok; vm_compute; reflexivity|].
  split; [apply (alongb_ok _ _ single_transfers_ok); vm_compute; reflexivity|].
  split; [apply (alongb_ok _ _ successes_ok); vm_compute; reflexivity|].
  split.
  - vm_compute. tauto.
  - vm_compute. intros [H|[H|[]]]; discriminate.
Qed.

Lemma duplicate_case :
  exists s, run history_duplicate (start 2 (Some 100)) = Went s
    /\ along no_save_while_moving history_duplicate (start 2 (Some 100))
    /\ along no_failure history_duplicate (start 2 (Some 100))
    /\ saved "wind" history_duplicate = [1; 2]
    /\ x_local s "wind" ++ x_remote s "wind" = [1; 2; 1; 2].
Proof.
  eexists. split; [apply went_ok; vm_compute; reflexivity|].
  split; [apply (alongb_ok _ _ calm_saves_ok); vm_compute; reflexivity|].
  split; [apply (alongb_ok _ _ successes_ok); vm_compute; reflexivity|].
  vm_compute. repeat split.
Qed.

Lemma overlap_case :
  exists s, run history_overlap (start 2 (Some 100)) = Went s
    /\ along no_save_while_moving history_overlap (start 2 (Some 100))
    /\ along no_failure history_overlap (start 2 (Some 100))
    /\ along no_insert_race history_overlap (start 2 (Some 100))
    /\ saved "wind" history_overlap = [1; 2]
    /\ x_local s "wind" ++ x_remote s "wind" = [1; 2; 1; 2]
    /\ bytes "wind" 0 history_overlap = 120
    /\ recorded_size "wind" s = 2 ^ 64 - 120.
Proof.
  eexists. split; [apply went_ok; vm_compute; reflexivity|].
  split; [apply (alongb_ok _ _ calm_saves_ok); vm_compute; reflexivity|].
  split; [apply (alongb_ok _ _ successes_ok); vm_compute; reflexivity|].
  split; [apply (alongb_ok _ _ single_inserts_ok); vm_compute; reflexivity|].
  vm_compute. repeat split.
Qed.

Lemma equal_case :
  exists s, run history_equal (start 2 (Some 100)) = Went s
    /\ along one_transfer_at_a_time history_equal (start 2 (Some 100))
    /\ along no_insert_race history_equal (start 2 (Some 100))
    /\ along no_failure history_equal (start 2 (Some 100))
    /\ (forall t, bytes_bounded t history_equal)
    /\ quiet s /\ x_batch s = Some 60 /\ x_dropped s = [] /\ recorded_size "wind" s = 60.
Proof.
  eexists. split; [apply went_ok; vm_compute; reflexivity|].
  split; [apply (alongb_ok _ _ single_transfers_ok); vm_compute; reflexivity|].
  split; [apply (alongb_ok _ _ single_inserts_ok); vm_compute; reflexivity|].
  split; [apply (alongb_ok _ _ successes_ok); vm_compute; reflexivity|].
  split.
  - intros t. intros past future. apply boundedb_ok. cbn [boundedb history_equal bytes].
    destruct (String.eqb "wind" t); vm_compute; reflexivity.
  - split; [|vm_compute; repeat split].
    intros a Ha. revert Ha. apply none_of. vm_compute. reflexivity.
Qed.

(** The circumstances of the theorems about sizes in [history]. *)
Lemma history_sizes :
  along unsigned history (start 2 (Some 100))
  /\ along one_transfer_at_a_time history (start 2 (Some 100))
  /\ along no_insert_race history (start 2 (Some 100))
  /\ along no_failure history (start 2 (Some 100))
  /\ along no_new_batch_size history (start 2 (Some 100))
  /\ (forall t, bytes_bounded t history)
  /\ exists s, run history (start 2 (Some 100)) = Went s /\ quiet s /\ x_batch s = Some 100
     /\ x_dropped s = [] /\ recorded_size "wind" s = 70 /\ bytes "wind" 0 history = 180.
Proof.
  split; [apply (alongb_ok _ _ unsignedb_ok); vm_compute; reflexivity|].
  split; [apply (alongb_ok _ _ single_transfers_ok); vm_compute; reflexivity|].
  split; [apply (alongb_ok _ _ single_inserts_ok); vm_compute; reflexivity|].
  split; [apply (alongb_ok _ _ successes_ok); vm_compute; reflexivity|].
  split; [apply (alongb_ok _ _ same_batch_ok); vm_compute; reflexivity|].
  split.
  - intros t. intros past future. apply boundedb_ok. cbn [boundedb history bytes].
    destruct (String.eqb "wind" t); vm_compute; reflexivity.
  - eexists. split; [apply went_ok; vm_compute; reflexivity|].
    split; [|vm_compute; repeat split].
    intros a Ha. revert Ha. apply none_of. vm_compute. reflexivity.
Qed.

Lemma dropped_case :
  exists s, run history_dropped (start 2 (Some 100)) = Went s
    /\ mem "wind" (x_dropped s) = true /\ recorded_size "wind" s = 120
    /\ x_local s "wind" = [1; 2; 3] /\ x_remote s "wind" = []
    /\ went (step (Transfer_all 0 ["wind"]) s) = true.
Proof.
  eexists. split; [apply went_ok; vm_compute; reflexivity|].
  vm_compute. repeat split.
Qed.

Lemma periodic_case :
  exists s, run [Save 0 "wind" [1] 60; Acquire 0; Go 0 true; Go 0 true; Go 0 true; Go 0 true;
                 Periodic_transfer 1 ["wind"]; Go 1 true; Go 1 true; Go 1 true]
              (start 2 (Some 100)) = Went s
    /\ step (Go 1 false) s = Aborted.
Proof.
  eexists. split; [apply went_ok; vm_compute; reflexivity|]. vm_compute. reflexivity.
Qed.

Lemma size_wraps :
  exists events s, run events (start 2 (Some 100)) = Went s
    /\ along no_insert_race events (start 2 (Some 100))
    /\ bytes "wind" 0 events = 120
    /\ recorded_size "wind" s = 2 ^ 64 - 120.
Proof.
  destruct overlap_case as (s & H1 & _ & _ & H2 & _ & _ & H3 & H4).
  exists history_overlap, s. split; [exact H1|]. split; [exact H2|]. split; assumption.
Qed.
