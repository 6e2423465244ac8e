(** Concrete runs of the pipeline of Model/Pipeline.v. *)
From Coq Require Import ZArith List Bool String Ascii Permutation Sorted Lia.
From Verif Require Import Model.Pipeline Spec.PipelineSpec Proofs.PipelineMaps Proofs.PipelineInvariant
  Proofs.PipelineSteps Proofs.PipelineRuns Proofs.PipelineCrash Proofs.PipelineProgress Proofs.PipelineResults.
Import ListNotations.
Open Scope Z_scope.

(** A hash function without collisions. *)
Fixpoint toy_hash (s : string) : Z :=
  match s with
  | EmptyString => 1
  | String c s => 256 * toy_hash s + Z.of_N (N_of_ascii c)
  end.

(** Sorting by insertion. *)
Fixpoint insert_point (p : point) (l : list point) : list point :=
  match l with
  | [] => [p]
  | q :: l => if p_time p <=? p_time q then p :: q :: l else q :: insert_point p l
  end.
Definition toy_sort (l : list point) : list point := fold_right insert_point [] l.

Lemma insert_point_perm p l : Permutation (insert_point p l) (p :: l).
Proof.
  induction l as [|q l IH]; cbn [insert_point]; [reflexivity|].
  destruct (p_time p <=? p_time q); [reflexivity|]. rewrite IH. apply perm_swap.
Qed.

Lemma insert_point_sorted p l : StronglySorted earlier l -> StronglySorted earlier (insert_point p l).
Proof.
  induction l as [|q l IH]; intros H; cbn [insert_point].
  - constructor; [constructor|constructor].
  - apply StronglySorted_inv in H. destruct H as [H1 H2].
    destruct (p_time p <=? p_time q) eqn:E.
    + apply Z.leb_le in E. constructor; [constructor; assumption|]. constructor; [exact E|].
      eapply Forall_impl; [|exact H2]. unfold earlier. intros a Ha. lia.
    + apply Z.leb_gt in E. constructor; [apply IH; exact H1|].
      apply (Permutation_Forall (Permutation_sym (insert_point_perm p l))).
      constructor; [unfold earlier; lia|exact H2].
Qed.

Lemma toy_sorts : sorts_points toy_sort.
Proof.
  intros l. induction l as [|p l [IH1 IH2]]; cbn [toy_sort fold_right]; [split; constructor|].
  split; [|apply insert_point_sorted; exact IH2].
  rewrite insert_point_perm. constructor. exact IH1.
Qed.

(** Decision procedures for the conditions on data points. *)
Definition metadata_dec (m n : metadata) : {m = n} + {m <> n}.
Proof. repeat decide equality. Defined.
Definition tags_dec (l k : list string) : {l = k} + {l <> k}.
Proof. repeat decide equality. Defined.
Definition series_dec (a b : metadata * list string * Z) : {a = b} + {a <> b}.
Proof. repeat decide equality. Defined.

Definition collision_freeb (hash : string -> Z) (l : list item) : bool :=
  forallb (fun x => forallb (fun y =>
    if hash (series_name x) =? hash (series_name y)
    then (if metadata_dec (i_meta x) (i_meta y) then true else false)
         && (if tags_dec (i_tags x) (i_tags y) then true else false)
    else true) l) l.

Lemma collision_freeb_ok hash l : collision_freeb hash l = true -> collision_free hash l.
Proof.
  unfold collision_freeb. intros H x y Hx Hy E. rewrite forallb_forall in H. specialize (H x Hx).
  rewrite forallb_forall in H. specialize (H y Hy). apply Z.eqb_eq in E. rewrite E in H.
  apply andb_true_iff in H. destruct H as [H1 H2].
  destruct (metadata_dec (i_meta x) (i_meta y)); [|discriminate H1].
  destruct (tags_dec (i_tags x) (i_tags y)); [|discriminate H2]. split; assumption.
Qed.

Definition distinct_timesb (l : list item) : bool :=
  let keys := map (fun x => (i_meta x, i_tags x, p_time (i_point x))) l in
  Nat.eqb (List.length (nodup series_dec keys)) (List.length keys).

Lemma distinct_timesb_ok l : distinct_timesb l = true -> distinct_times l.
Proof.
  unfold distinct_timesb, distinct_times. cbv zeta.
  generalize (map (fun x => (i_meta x, i_tags x, p_time (i_point x))) l). intros keys H.
  apply Nat.eqb_eq in H. induction keys as [|k keys IH]; [constructor|].
  cbn [nodup] in H. destruct (in_dec series_dec k keys) as [Hin|Hin].
  - exfalso. assert (Hle : forall l, (List.length (nodup series_dec l) <= List.length l)%nat).
    { clear. induction l as [|a l IH]; cbn [nodup List.length]; [lia|].
      destruct (in_dec series_dec a l); cbn [List.length]; lia. }
    specialize (Hle keys). cbn [List.length] in H. lia.
  - cbn [List.length] in H. constructor; [exact Hin|]. apply IH. lia.
Qed.

Definition roomb (capacity : nat) (l : list item) (limit : Z) : bool :=
  forallb (fun x => forallb (fun y =>
    memory_size capacity (i_meta x) + memory_size capacity (i_meta y) <=? limit) l) l.

Lemma roomb_ok capacity l limit : roomb capacity l limit = true -> room capacity l limit.
Proof.
  unfold roomb. intros H x y Hx Hy. rewrite forallb_forall in H. specialize (H x Hx).
  rewrite forallb_forall in H. specialize (H y Hy). apply Z.leb_le in H. exact H.
Qed.

Definition item_in (x : item) (l : list item) : bool := if in_dec item_dec x l then true else false.
Lemma item_in_ok x l b : item_in x l = b -> if b then In x l else ~ In x l.
Proof. unfold item_in. destruct (in_dec item_dec x l); intros <-; assumption. Qed.

(** What is counted twice in one list only. *)
Definition occurs (x : item) (l : list item) : nat := count_occ item_dec l x.

(** * Runs *)

Definition table1 : metadata := {| t_name := "m"; t_fields := 1 |}.
Definition table2 : metadata := {| t_name := "n"; t_fields := 2 |}.
Definition row_of (tag : string) (t v : Z) : row := {| r_tags := [tag]; r_time := t; r_values := [v] |}.
Definition row_two (tag : string) (t v w : Z) : row := {| r_tags := [tag]; r_time := t; r_values := [v; w] |}.

Definition pools (a b c : Z) : pool := {| ingested := a; uncompressed := b; compressed := c |}.

(** [UNCOMPRESSED_DATA_BUFFER_CAPACITY], mod.rs l.58, and the memory for buffers of tables with one and
    two field columns. *)
Definition code_capacity : nat := Z.to_nat 65536.
Definition one : Z := 786432.
Definition two : Z := 1048576.

(** Series a and b are received in one batch. Series a is finished as it gets no more data points and
    its segments are committed as there is no memory for them, while series b is in memory. After a
    crash the batch is considered committed. *)
Definition lost_before : list event :=
  [Replay; Insert table1 [row_of "a" 1 10; row_of "b" 1 20] 100; Send; Receive; Point true; Point true; Finish;
   Insert table1 [row_of "b" 2 30] 100; Send; Receive; Point true; Finish;
   Compress; Send_segments [5]; Write; Work; Commit true].
Definition lost_after : list event :=
  [Replay; Replay; Receive; Point true; Finish; Request_flush; Receive; Compress; Send_segments [5]; Compress;
   Write; Work; Commit true; Work; Write; Work; Return].
Definition lost_limits : pool := pools 1000 (4 * one) 4.
Definition lost_item : item :=
  {| i_meta := table1; i_tags := ["b"%string]; i_point := {| p_time := 1; p_values := [20]; p_source := Some 0 |} |}.

(** The data points of series a in batches 0 and 2 have the same timestamp, so they are spilled to the
    same file. The buffer of batch 0 is compressed after its file was replaced. *)
Definition twice_before : list event :=
  [Replay; Insert table1 [row_of "a" 1 10] 1; Send; Receive; Point true; Finish;
   Adjust_uncompressed (-2 * one); Adjust; Adjust; Adjust; Adjust_uncompressed (2 * one); Adjust;
   Insert table1 [row_of "b" 1 20] 1; Send; Receive; Point true; Finish;
   Insert table1 [row_of "a" 1 30] 1; Send; Receive; Point true; Finish;
   Adjust_uncompressed (-2 * one); Adjust; Adjust; Adjust].
Definition twice_after : list event :=
  [Compress; Send_segments [5]; Write; Work; Commit true; Work;
   Crash; Replay; Replay; Replay; Receive; Point true; Finish; Receive; Point true; Finish; Request_flush; Receive;
   Compress; Send_segments [5]; Compress; Send_segments [5]; Compress;
   Write; Work; Commit true; Work; Write; Work; Commit true; Work; Write; Work; Return].
Definition twice_limits : pool := pools 1000 (2 * one) 4.
Definition twice_item : item :=
  {| i_meta := table1; i_tags := ["a"%string]; i_point := {| p_time := 1; p_values := [30]; p_source := Some 2 |} |}.
Definition replaced_item : item :=
  {| i_meta := table1; i_tags := ["a"%string]; i_point := {| p_time := 1; p_values := [10]; p_source := Some 0 |} |}.

(** All buffers in memory are being compressed when memory for another one is needed. *)
Definition starved_run : list event :=
  [Replay; Insert table1 [row_of "a" 1 10] 1; Send; Receive; Point true; Finish;
   Insert table1 [row_of "b" 1 20] 1; Send; Receive; Point true; Finish; Compress;
   Adjust_uncompressed (- one); Adjust; Adjust; Adjust;
   Insert table1 [row_of "c" 1 30] 1; Send; Receive; Point true].
Definition starved_limits : pool := pools 1000 (2 * one) 1000.
Definition starved_item : item :=
  {| i_meta := table1; i_tags := ["c"%string]; i_point := {| p_time := 1; p_values := [30]; p_source := Some 2 |} |}.

(** A buffer is spilled to make room for another one, for which no memory is reserved. *)
Definition exceeded_run : list event :=
  [Replay; Insert table1 [row_of "a" 1 10; row_of "b" 1 20; row_of "c" 1 30] 100; Send; Receive;
   Point true; Point true; Point true].
Definition exceeded_limits : pool := pools 1000 one 1000.

(** Saving segments of two field columns returns more memory than was reserved. *)
Definition credited_run : list event :=
  [Replay; Insert table2 [row_two "a" 1 10 11] 1; Send; Receive; Point true; Finish; Request_flush; Receive;
   Compress; Send_segments [5; 5]; Compress; Write; Work; Write; Work; Commit true; Work; Return;
   Insert table1 [row_of "a" 1 10] 1; Send; Receive; Point true; Finish;
   Insert table1 [row_of "b" 1 10] 1; Send; Receive; Point true; Finish;
   Compress; Send_segments [15]; Write; Work].
Definition credited_limits : pool := pools 1000 (4 * two) 10.

(** The client saves the second table when it has lowered the limit and the writer is saving the first. *)
Definition table3 : metadata := {| t_name := "k"%string; t_fields := 1 |}.
Definition raced_run : list event :=
  [Replay; Insert table1 [row_of "a" 1 10] 1; Send; Receive; Point true; Finish;
   Insert table3 [row_of "a" 1 10] 1; Send; Receive; Point true; Finish;
   Insert table1 [row_of "b" 1 10] 1; Send; Receive; Point true; Finish;
   Compress; Send_segments [5]; Write; Work; Compress; Send_segments [3];
   Adjust_compressed (-10); Write; Work; Adjust; Adjust].
Definition raced_limits : pool := pools 1000 (4 * one) 10.

(** A commit fails while flushing. *)
Definition dropped_run : list event :=
  [Replay; Insert table1 [row_of "a" 1 10] 1; Send; Receive; Point true; Finish; Request_flush; Receive;
   Compress; Send_segments [5]; Compress; Write; Work; Write; Work; Commit false].
Definition dropped_limits : pool := pools 1000 one 5.

(** The memory of the buffer was never returned, so there is nothing to save when the limit is lowered. *)
Definition dropped_next : list event := [Return; Adjust_compressed (-5)].

(** While the client spills a buffer, the ingestion thread creates another one for the series. *)
Definition taken_run : list event :=
  [Replay; Insert table1 [row_of "a" 1 10; row_of "b" 1 20; row_of "c" 1 30] 1; Send;
   Insert table1 [row_of "a" 2 40] 1; Send;
   Receive; Point true; Point true; Point true; Finish; Adjust_uncompressed (-3 * one); Adjust; Receive; Point true;
   Adjust; Reorder_memory 1; Adjust; Adjust; Adjust; Finish].
Definition taken_limits : pool := pools 1000 (3 * one) 1000.

(** A batch larger than the lowered limit of ingested memory. *)
Definition lowered_run : list event :=
  [Replay; Insert table1 [row_of "a" 1 10; row_of "a" 2 20] 100; Send; Adjust_ingested (-990)].

(** * A run in which buffers are filled, spilled, read again and flushed, and limits are changed *)

(** A buffer of two data points of a table with one field takes 24 bytes and one of a table with two
    fields takes 32 bytes. *)
Definition busy_run : list event :=
  [Replay; Insert table1 [row_of "a" 1 10; row_of "b" 1 20; row_of "c" 1 25] 100; Send; Receive; Point true;
   Point true; Point true; Finish;
   Adjust_uncompressed (-24); Reorder_memory 1; Adjust; Adjust; Adjust; Adjust_uncompressed 24; Adjust;
   Insert table1 [row_of "b" 2 30; row_of "d" 1 40] 100; Send; Receive; Point true; Send_full; Compress;
   Send_segments [5]; Point true; Finish; Write; Work; Adjust_compressed (-10); Adjust; Adjust; Adjust;
   Adjust_compressed 10; Adjust;
   Insert table2 [row_two "a" 7 50 51] 100; Send; Receive; Point true; Compress; Send_segments [4]; Point true;
   Compress; Send_segments [4]; Point true; Write; Work; Finish].
Definition busy_limits : pool := pools 1000 72 12.
Definition busy_flush : list event :=
  [Receive; Compress; Send_segments [3]; Compress; Send_segments [2; 2]; Compress; Write; Work; Write; Work; Write;
   Work; Commit true; Work; Write; Work; Commit true; Work].

(** * Decision procedures for runs *)

Definition by_ingestionb (e : event) : bool :=
  match e with Receive | Point _ | Send_full | Finish => true | _ => false end.
Definition by_writerb (e : event) : bool := match e with Write | Work | Commit _ => true | _ => false end.
Definition usualb (e : event) (s : state) : bool :=
  negb (by_ingestionb e && match s_client s with Lowering _ | Spilling _ _ => true | _ => false end)
  && negb (by_writerb e && match s_client s with Freeing _ | Saving _ _ _ => true | _ => false end)
  && match e with
     | Adjust_uncompressed _ => match s_ingestion s with Full _ _ _ => false | _ => true end
     | Adjust_compressed _ => match s_writer s with Waiting => true | _ => false end
     | Point written | Commit written => written
     | _ => true
     end.

Lemma usualb_ok e s : usualb e s = true -> usual e s.
Proof.
  unfold usualb, usual, undisturbed, spills_written, commits_written.
  intros H. apply andb_true_iff in H. destruct H as [H H3]. apply andb_true_iff in H. destruct H as [H1 H2].
  split; [|split].
  - split; [|split].
    + intros He. destruct e; try destruct He; cbn [by_ingestionb andb] in H1;
        destruct (s_client s); try exact I; discriminate H1.
    + intros He. destruct e; try destruct He; cbn [by_writerb andb] in H2;
        destruct (s_client s); try exact I; discriminate H2.
    + destruct e; try exact I.
      * destruct (s_ingestion s); try exact I. discriminate H3.
      * destruct (s_writer s); try discriminate H3. reflexivity.
  - intros ->. discriminate H3.
  - intros ->. discriminate H3.
Qed.

Definition fitsb (capacity : nat) (e : event) (s : state) : bool :=
  match e, s_ingestion s with
  | Point _, Points b (r :: _) false =>
      existsb (Z.eqb (tag_hash toy_hash (t_name (b_meta b)) (r_tags r))) (map fst (s_memory s))
      || (memory_size capacity (b_meta b) <=? uncompressed (s_pool s))
      || match s_uncompressed s with [] => false | _ => true end
  | _, _ => true
  end.
Lemma fitsb_ok capacity e s : fitsb capacity e s = true -> fits toy_hash capacity e s.
Proof.
  unfold fitsb, fits. destruct e; try (intros; exact I). destruct (s_ingestion s); try (intros; exact I).
  destruct rest; try (intros; exact I). destruct waiting; try (intros; exact I).
  intros H. apply orb_true_iff in H. destruct H as [H|H].
  - apply orb_true_iff in H. destruct H as [H|H].
    + left. apply existsb_exists in H. destruct H as [h [H1 H2]]. apply Z.eqb_eq in H2. subst h. exact H1.
    + right. left. apply Z.leb_le. exact H.
  - right. right. destruct (s_uncompressed s); [discriminate H|discriminate].
Qed.

Definition roomyb (capacity : nat) (s : state) : bool :=
  roomb capacity (received s) (uncompressed (s_limits s)).

Section Check.
  Variable capacity : nat.
  Variable logging : bool.

  Fixpoint alongb (P : event -> state -> bool) (events : list event) (s : state) : bool :=
    match events with
    | [] => true
    | e :: events =>
        P e s && match step toy_hash capacity toy_sort logging e s with
                 | Next s => alongb P events s
                 | _ => true
                 end
    end.

  Lemma alongb_ok (P : event -> state -> bool) (Q : event -> state -> Prop) :
    (forall e s, P e s = true -> Q e s) ->
    forall events s, alongb P events s = true -> along toy_hash capacity toy_sort logging Q events s.
  Proof.
    intros HP. induction events as [|e events IH]; intros s H; cbn [along alongb] in *; [exact I|].
    apply andb_true_iff in H. destruct H as [H1 H2]. split; [apply HP; exact H1|].
    destruct (step toy_hash capacity toy_sort logging e s); try exact I. apply IH. exact H2.
  Qed.

  Definition example (events : list event) (limits : pool) : result :=
    run toy_hash capacity toy_sort logging events (start logging limits [] []).

  (** A run without a panic, with usual steps and data points that are not confused. *)
  Definition checked (events : list event) (limits : pool) (Q : state -> bool) : bool :=
    match example events limits with
    | Next s =>
        alongb usualb events (start logging limits [] []) && collision_freeb toy_hash (received s) && Q s
    | _ => false
    end.

  Lemma checked_ok events limits Q : checked events limits Q = true ->
    exists s, run toy_hash capacity toy_sort logging events (start logging limits [] []) = Next s
      /\ along toy_hash capacity toy_sort logging usual events (start logging limits [] [])
      /\ collision_free toy_hash (received s) /\ Q s = true.
  Proof.
    unfold checked, example.
    destruct (run toy_hash capacity toy_sort logging events (start logging limits [] [])) as [| |s];
      try discriminate.
    intros H. apply andb_true_iff in H. destruct H as [H H3]. apply andb_true_iff in H. destruct H as [H1 H2].
    exists s. split; [reflexivity|].
    split; [apply (alongb_ok usualb); [exact usualb_ok|exact H1]|].
    split; [apply collision_freeb_ok; exact H2|exact H3].
  Qed.
End Check.

Definition clientb (c : client) (s : state) : bool :=
  match c, s_client s with Idle, Idle | Flushing, Flushing | Closing, Closing | Closed, Closed => true | _, _ => false end.
Lemma clientb_ok c s : clientb c s = true -> s_client s = c.
Proof. unfold clientb. destruct c, (s_client s); try discriminate; reflexivity. Qed.

Definition healthyb (s : state) : bool :=
  match s_ingestion s with Failed => false | _ => true end
  && match s_compressor s with Compressor_failed => false | _ => true end
  && match s_writer s with Writer_failed => false | _ => true end.
Lemma healthyb_ok s : healthyb s = true -> healthy s.
Proof.
  unfold healthyb, healthy. intros H. apply andb_true_iff in H. destruct H as [H H3].
  apply andb_true_iff in H. destruct H as [H1 H2].
  repeat split; intros E; rewrite E in *; discriminate.
Qed.

Ltac use_checked H :=
  apply checked_ok in H; destruct H as [s [Hrun [Halong [Hfree H]]]];
  repeat match type of H with
         | (_ && _)%bool = true => apply andb_true_iff in H; let K := fresh "K" in destruct H as [H K]
         end.

(** The program of the examples. *)
Notation run_ := (run toy_hash code_capacity toy_sort true).
Notation start_ limits := (start true limits [] []).
Notation along_ := (along toy_hash code_capacity toy_sort true).

(** * Witnesses *)

Lemma lost_witness : exists s,
  run_ (lost_before ++ Crash :: lost_after) (start_ lost_limits) = Next s
  /\ along_ usual (lost_before ++ Crash :: lost_after) (start_ lost_limits)
  /\ collision_free toy_hash (received s) /\ distinct_times (received s) /\ healthy s
  /\ s_client s = Idle /\ In lost_item (received s) /\ ~ In lost_item (saved s ++ live s).
Proof.
  assert (H : checked code_capacity true (lost_before ++ Crash :: lost_after) lost_limits
    (fun s => distinct_timesb (received s) && healthyb s && clientb Idle s && item_in lost_item (received s)
              && negb (item_in lost_item (saved s ++ live s))) = true) by (vm_compute; reflexivity).
  use_checked H. exists s. apply negb_true_iff in K.
  split; [exact Hrun|]. split; [exact Halong|]. split; [exact Hfree|].
  split; [apply distinct_timesb_ok; exact H|]. split; [apply healthyb_ok; exact K2|].
  split; [apply clientb_ok; exact K1|]. split; [apply (item_in_ok _ _ _ K0)|apply (item_in_ok _ _ _ K)].
Qed.

Lemma twice_witness : exists s,
  run_ (twice_before ++ twice_after) (start_ twice_limits) = Next s
  /\ along_ usual (twice_before ++ twice_after) (start_ twice_limits)
  /\ collision_free toy_hash (received s) /\ healthy s /\ s_client s = Idle
  /\ count_occ item_dec (received s) twice_item = 1%nat /\ count_occ item_dec (saved s) twice_item = 2%nat.
Proof.
  assert (H : checked code_capacity true (twice_before ++ twice_after) twice_limits
    (fun s => healthyb s && clientb Idle s && Nat.eqb (count_occ item_dec (received s) twice_item) 1
              && Nat.eqb (count_occ item_dec (saved s) twice_item) 2) = true) by (vm_compute; reflexivity).
  use_checked H. exists s.
  split; [exact Hrun|]. split; [exact Halong|]. split; [exact Hfree|]. split; [apply healthyb_ok; exact H|].
  split; [apply clientb_ok; exact K1|].
  split; [apply Nat.eqb_eq; exact K0|apply Nat.eqb_eq; exact K].
Qed.

Lemma replaced_witness : exists s,
  run_ twice_before (start_ twice_limits) = Next s /\ ~ In Crash twice_before
  /\ along_ usual twice_before (start_ twice_limits)
  /\ collision_free toy_hash (received s) /\ healthy s
  /\ In replaced_item (received s) /\ ~ In replaced_item (saved s ++ live s).
Proof.
  assert (H : checked code_capacity true twice_before twice_limits
    (fun s => healthyb s && item_in replaced_item (received s)
              && negb (item_in replaced_item (saved s ++ live s))) = true) by (vm_compute; reflexivity).
  use_checked H. exists s. apply negb_true_iff in K.
  split; [exact Hrun|]. split.
  { unfold twice_before. cbn [In]. intros HC.
    repeat (destruct HC as [HC|HC]; [discriminate HC|]). exact HC. }
  split; [exact Halong|]. split; [exact Hfree|].
  split; [apply healthyb_ok; exact H|]. split; [apply (item_in_ok _ _ _ K0)|apply (item_in_ok _ _ _ K)].
Qed.

Lemma starved_witness : exists s,
  run_ starved_run (start_ starved_limits) = Next s /\ ~ In Crash starved_run
  /\ along_ usual starved_run (start_ starved_limits)
  /\ collision_free toy_hash (received s) /\ distinct_times (received s)
  /\ In starved_item (received s) /\ ~ In starved_item (saved s ++ live s).
Proof.
  assert (H : checked code_capacity true starved_run starved_limits
    (fun s => distinct_timesb (received s) && item_in starved_item (received s)
              && negb (item_in starved_item (saved s ++ live s))) = true) by (vm_compute; reflexivity).
  use_checked H. exists s. apply negb_true_iff in K.
  split; [exact Hrun|]. split.
  { unfold starved_run. cbn [In]. intros HC.
    repeat (destruct HC as [HC|HC]; [discriminate HC|]). exact HC. }
  split; [exact Halong|]. split; [exact Hfree|].
  split; [apply distinct_timesb_ok; exact H|]. split; [apply (item_in_ok _ _ _ K0)|apply (item_in_ok _ _ _ K)].
Qed.

Lemma exceeded_witness : exists s,
  run_ exceeded_run (start_ exceeded_limits) = Next s
  /\ along_ usual exceeded_run (start_ exceeded_limits)
  /\ collision_free toy_hash (received s) /\ distinct_times (received s) /\ healthy s
  /\ uncompressed (s_limits s) = one /\ uncompressed (s_pool s) = 0
  /\ used_uncompressed code_capacity s = 2 * one.
Proof.
  assert (H : checked code_capacity true exceeded_run exceeded_limits
    (fun s => distinct_timesb (received s) && healthyb s && (uncompressed (s_limits s) =? one)
              && (uncompressed (s_pool s) =? 0) && (used_uncompressed code_capacity s =? 2 * one)) = true)
    by (vm_compute; reflexivity).
  use_checked H. exists s.
  split; [exact Hrun|]. split; [exact Halong|]. split; [exact Hfree|].
  split; [apply distinct_timesb_ok; exact H|]. split; [apply healthyb_ok; exact K2|].
  split; [apply Z.eqb_eq; exact K1|]. split; [apply Z.eqb_eq; exact K0|apply Z.eqb_eq; exact K].
Qed.

Lemma credited_witness : exists s,
  run_ credited_run (start_ credited_limits) = Next s
  /\ along_ usual credited_run (start_ credited_limits)
  /\ collision_free toy_hash (received s) /\ distinct_times (received s) /\ healthy s
  /\ s_client s = Idle /\ s_writer s = Waiting
  /\ compressed (s_limits s) = 10 /\ compressed (s_pool s) = 0 /\ used_compressed s = 15.
Proof.
  assert (H : checked code_capacity true credited_run credited_limits
    (fun s => distinct_timesb (received s) && healthyb s && clientb Idle s
              && (match s_writer s with Waiting => true | _ => false end)
              && (compressed (s_limits s) =? 10) && (compressed (s_pool s) =? 0) && (used_compressed s =? 15)) = true)
    by (vm_compute; reflexivity).
  use_checked H. exists s.
  split; [exact Hrun|]. split; [exact Halong|]. split; [exact Hfree|].
  split; [apply distinct_timesb_ok; exact H|]. split; [apply healthyb_ok; exact K4|].
  split; [apply clientb_ok; exact K3|]. split; [destruct (s_writer s); try discriminate K2; reflexivity|].
  split; [apply Z.eqb_eq; exact K1|]. split; [apply Z.eqb_eq; exact K0|apply Z.eqb_eq; exact K].
Qed.

(** Runs with steps that are not undisturbed. *)
Definition written (e : event) : Prop := spills_written e /\ commits_written e.
Definition writtenb (e : event) : bool := match e with Point w | Commit w => w | _ => true end.
Lemma writtenb_ok events : forallb writtenb events = true -> Forall written events.
Proof.
  intros H. apply Forall_forall. intros e He. rewrite forallb_forall in H. specialize (H e He).
  split; intros ->; discriminate H.
Qed.

Definition checked2 (events : list event) (limits : pool) (Q : state -> bool) : bool :=
  match example code_capacity true events limits with
  | Next s => collision_freeb toy_hash (received s) && distinct_timesb (received s) && Q s
  | _ => false
  end.
Lemma checked2_ok events limits Q : checked2 events limits Q = true ->
  exists s, run_ events (start_ limits) = Next s /\ collision_free toy_hash (received s)
    /\ distinct_times (received s) /\ Q s = true.
Proof.
  unfold checked2, example.
  destruct (run_ events (start_ limits)) as [| |s]; try discriminate.
  intros H. apply andb_true_iff in H. destruct H as [H H3]. apply andb_true_iff in H. destruct H as [H1 H2].
  exists s. split; [reflexivity|]. split; [apply collision_freeb_ok; exact H1|].
  split; [apply distinct_timesb_ok; exact H2|exact H3].
Qed.

Definition aborts (e : event) (s : state) : bool :=
  match step toy_hash code_capacity toy_sort true e s with Aborted => true | _ => false end.
Lemma aborts_ok e s : aborts e s = true -> step toy_hash code_capacity toy_sort true e s = Aborted.
Proof. unfold aborts. destruct (step toy_hash code_capacity toy_sort true e s); try discriminate. reflexivity. Qed.

Lemma raced_witness : exists s,
  run_ raced_run (start_ raced_limits) = Next s /\ ~ In Crash raced_run /\ Forall written raced_run
  /\ collision_free toy_hash (received s) /\ distinct_times (received s)
  /\ step toy_hash code_capacity toy_sort true Adjust s = Aborted.
Proof.
  assert (H : checked2 raced_run raced_limits (aborts Adjust) = true) by (vm_compute; reflexivity).
  apply checked2_ok in H. destruct H as [s [H1 [H2 [H3 H4]]]]. exists s. split; [exact H1|]. split.
  { unfold raced_run. cbn [In]. intros HC. repeat (destruct HC as [HC|HC]; [discriminate HC|]). exact HC. }
  split; [apply writtenb_ok; reflexivity|]. split; [exact H2|]. split; [exact H3|]. apply aborts_ok. exact H4.
Qed.

Lemma leaked_witness : exists s,
  run_ (dropped_run ++ dropped_next) (start_ dropped_limits) = Next s
  /\ along_ undisturbed (dropped_run ++ dropped_next) (start_ dropped_limits)
  /\ collision_free toy_hash (received s) /\ distinct_times (received s)
  /\ undisturbed Adjust s /\ step toy_hash code_capacity toy_sort true Adjust s = Aborted.
Proof.
  assert (H : checked2 (dropped_run ++ dropped_next) dropped_limits (aborts Adjust) = true) by (vm_compute; reflexivity).
  apply checked2_ok in H. destruct H as [s [H1 [H2 [H3 H4]]]]. exists s. split; [exact H1|].
  split; [|split; [exact H2|split; [exact H3|split; [|apply aborts_ok; exact H4]]]].
  - assert (Hb : alongb code_capacity true (fun e s => match e with Commit _ => match s_client s with Flushing => true | _ => false end
                 | e => usualb e s end) (dropped_run ++ dropped_next) (start_ dropped_limits) = true)
      by (vm_compute; reflexivity).
    refine (alongb_ok code_capacity true _ undisturbed _ _ _ Hb). clear. intros e s H.
    assert (He : usual e s \/ exists w, e = Commit w /\ s_client s = Flushing).
    { destruct e; try (left; apply usualb_ok; exact H). right. eexists. split; [reflexivity|].
      destruct (s_client s); try discriminate H. reflexivity. }
    destruct He as [He|[w [-> Hc]]]; [apply He|]. split; [intros []|]. rewrite Hc. split; [intros _; exact I|exact I].
  - split; [intros []|]. split; [intros []|exact I].
Qed.

Definition dropped_item : item :=
  {| i_meta := table1; i_tags := ["a"%string]; i_point := {| p_time := 1; p_values := [10]; p_source := Some 0 |} |}.
Definition returnsb (s : state) (Q : state -> bool) : bool :=
  match step toy_hash code_capacity toy_sort true Return s with Next s' => Q s' | _ => false end.

Lemma dropped_witness : exists s s',
  run_ dropped_run (start_ dropped_limits) = Next s /\ ~ In Crash dropped_run
  /\ collision_free toy_hash (received s) /\ distinct_times (received s)
  /\ step toy_hash code_capacity toy_sort true Return s = Next s' /\ s_client s = Flushing
  /\ In dropped_item (received s') /\ ~ In dropped_item (saved s' ++ live s').
Proof.
  assert (H : checked2 dropped_run dropped_limits (fun s => clientb Flushing s && returnsb s (fun s' =>
    item_in dropped_item (received s') && negb (item_in dropped_item (saved s' ++ live s')))) = true)
    by (vm_compute; reflexivity).
  apply checked2_ok in H. destruct H as [s [H1 [H2 [H3 H4]]]]. apply andb_true_iff in H4. destruct H4 as [H4 H5].
  unfold returnsb in H5. destruct (step toy_hash code_capacity toy_sort true Return s) as [| |s'] eqn:E; try discriminate H5.
  apply andb_true_iff in H5. destruct H5 as [H5 H6]. apply negb_true_iff in H6.
  exists s, s'. split; [exact H1|]. split.
  { unfold dropped_run. cbn [In]. intros HC. repeat (destruct HC as [HC|HC]; [discriminate HC|]). exact HC. }
  split; [exact H2|]. split; [exact H3|]. split; [exact E|]. split; [apply clientb_ok; exact H4|].
  split; [apply (item_in_ok _ _ _ H5)|apply (item_in_ok _ _ _ H6)].
Qed.

Lemma taken_witness : exists s,
  run_ taken_run (start_ taken_limits) = Next s /\ ~ In Crash taken_run /\ Forall written taken_run
  /\ collision_free toy_hash (received s) /\ distinct_times (received s) /\ healthy s /\ s_client s = Idle
  /\ In dropped_item (received s) /\ ~ In dropped_item (saved s ++ live s).
Proof.
  assert (H : checked2 taken_run taken_limits (fun s => healthyb s && clientb Idle s
    && item_in dropped_item (received s) && negb (item_in dropped_item (saved s ++ live s))) = true)
    by (vm_compute; reflexivity).
  apply checked2_ok in H. destruct H as [s [H1 [H2 [H3 H4]]]].
  apply andb_true_iff in H4. destruct H4 as [H4 K]. apply andb_true_iff in H4. destruct H4 as [H4 K0].
  apply andb_true_iff in H4. destruct H4 as [H4 K1]. apply negb_true_iff in K.
  exists s. split; [exact H1|]. split.
  { unfold taken_run. cbn [In]. intros HC. repeat (destruct HC as [HC|HC]; [discriminate HC|]). exact HC. }
  split; [apply writtenb_ok; reflexivity|].
  split; [exact H2|]. split; [exact H3|]. split; [apply healthyb_ok; exact H4|]. split; [apply clientb_ok; exact K1|].
  split; [apply (item_in_ok _ _ _ K0)|apply (item_in_ok _ _ _ K)].
Qed.

Lemma lowered_witness : exists s,
  run_ lowered_run (start_ taken_limits) = Next s /\ along_ usual lowered_run (start_ taken_limits)
  /\ collision_free toy_hash (received s) /\ distinct_times (received s) /\ s_client s = Idle
  /\ ingested (s_limits s) = 10 /\ used_ingested s = 100.
Proof.
  assert (H : checked code_capacity true lowered_run taken_limits
    (fun s => distinct_timesb (received s) && clientb Idle s && (ingested (s_limits s) =? 10)
              && (used_ingested s =? 100)) = true) by (vm_compute; reflexivity).
  use_checked H. exists s.
  split; [exact Hrun|]. split; [exact Halong|]. split; [exact Hfree|].
  split; [apply distinct_timesb_ok; exact H|]. split; [apply clientb_ok; exact K1|].
  split; [apply Z.eqb_eq; exact K0|apply Z.eqb_eq; exact K].
Qed.

(** The ingestion thread has failed, so the threads never stop. *)
Definition stuckb (s : state) : bool :=
  match s_ingestion s with Failed => true | Receiving => match s_ingested s with [] => true | _ => false end | _ => false end
  && match s_compressor s with Ready => true | _ => false end
  && match s_uncompressed s with [] => true | _ => false end
  && match s_writer s with Waiting => true | _ => false end
  && match s_compressed s with [] => true | _ => false end.
Lemma stuckb_ok hash capacity sort logging s : stuckb s = true -> ~ acts hash capacity sort logging s.
Proof.
  unfold stuckb. intros H [e [s' [He [_ [_ E]]]]].
  repeat (apply andb_true_iff in H; let K := fresh "K" in destruct H as [H K]).
  destruct e; try (destruct He as [[]|[[]|[]]]); cbn [step] in E;
    destruct (s_ingestion s); try discriminate H; destruct (s_compressor s); try discriminate K2;
    destruct (s_writer s); try discriminate K0; try discriminate E;
    destruct (s_uncompressed s); try discriminate K1; destruct (s_compressed s); try discriminate K;
    destruct (s_ingested s); try discriminate H; discriminate E.
Qed.

Definition hanging_run : list event := starved_run ++ [Request_stop; Send_segments [5]; Write; Work].
Definition blockedb (e : event) (s : state) : bool :=
  match step toy_hash code_capacity toy_sort true e s with Blocked => true | _ => false end.
Lemma hanging_witness : exists s,
  run_ hanging_run (start_ starved_limits) = Next s /\ along_ usual hanging_run (start_ starved_limits)
  /\ collision_free toy_hash (received s) /\ distinct_times (received s) /\ s_client s = Closing
  /\ ~ acts toy_hash code_capacity toy_sort true s
  /\ step toy_hash code_capacity toy_sort true Return s = Blocked.
Proof.
  assert (H : checked code_capacity true hanging_run starved_limits
    (fun s => distinct_timesb (received s) && clientb Closing s && stuckb s && blockedb Return s) = true)
    by (vm_compute; reflexivity).
  use_checked H. exists s.
  split; [exact Hrun|]. split; [exact Halong|]. split; [exact Hfree|].
  split; [apply distinct_timesb_ok; exact H|]. split; [apply clientb_ok; exact K1|].
  split; [apply stuckb_ok; exact K0|]. unfold blockedb in K.
  destruct (step toy_hash code_capacity toy_sort true Return s); try discriminate K. reflexivity.
Qed.

(** A batch larger than the memory for batches. *)
Definition large_run : list event := [Replay; Insert table1 [row_of "a" 1 10] 1001].
Lemma large_witness : exists s b,
  run_ large_run (start_ starved_limits) = Next s /\ along_ usual large_run (start_ starved_limits)
  /\ along_ (fun _ s => roomy code_capacity s) large_run (start_ starved_limits)
  /\ collision_free toy_hash (received s) /\ distinct_times (received s) /\ s_client s = Inserting b
  /\ ~ acts toy_hash code_capacity toy_sort true s
  /\ step toy_hash code_capacity toy_sort true Send s = Blocked.
Proof.
  assert (H : checked code_capacity true large_run starved_limits
    (fun s => distinct_timesb (received s) && (match s_client s with Inserting _ => true | _ => false end)
              && stuckb s && blockedb Send s) = true)
    by (vm_compute; reflexivity).
  use_checked H. destruct (s_client s) as [|b| | | | | | | |] eqn:Ec; try discriminate K1. exists s, b.
  split; [exact Hrun|]. split; [exact Halong|].
  split; [refine (alongb_ok code_capacity true (fun _ s => roomyb code_capacity s) _ _ _ _ _);
          [intros _ s'; apply roomb_ok|vm_compute; reflexivity]|].
  split; [exact Hfree|].
  split; [apply distinct_timesb_ok; exact H|]. split; [exact Ec|].
  split; [apply stuckb_ok; exact K0|]. unfold blockedb in K.
  destruct (step toy_hash code_capacity toy_sort true Send s); try discriminate K. reflexivity.
Qed.

(** * A run that has all the properties *)

Notation run2 := (run toy_hash 2 toy_sort true).
Notation along2 := (along toy_hash 2 toy_sort true).

Lemma busy_example : nonneg_limits busy_limits /\ exists s,
  run2 busy_run (start_ busy_limits) = Next s
  /\ along2 (fun e s => usual e s /\ roomy 2 s) busy_run (start_ busy_limits)
  /\ along2 (fits toy_hash 2) busy_run (start_ busy_limits) /\ Forall single_field busy_run
  /\ ~ In Crash busy_run
  /\ collision_free toy_hash (received s) /\ distinct_times (received s) /\ roomy 2 s /\ healthy s
  /\ s_client s = Idle /\ List.length (received s) = 6%nat /\ saved s <> [] /\ live s <> [].
Proof.
  split; [repeat split; intros C; discriminate C|].
  assert (H : checked 2 true busy_run busy_limits
    (fun s => distinct_timesb (received s) && roomyb 2 s && healthyb s && clientb Idle s
              && Nat.eqb (List.length (received s)) 6
              && negb (Nat.eqb (List.length (saved s)) 0) && negb (Nat.eqb (List.length (live s)) 0)) = true)
    by (vm_compute; reflexivity).
  use_checked H. exists s. split; [exact Hrun|].
  split; [refine (alongb_ok 2 true (fun e s => usualb e s && roomyb 2 s) _ _ _ _ _);
          [intros e s' E; apply andb_true_iff in E; destruct E as [E1 E2];
           split; [apply usualb_ok; exact E1|apply roomb_ok; exact E2]|vm_compute; reflexivity]|].
  split; [refine (alongb_ok 2 true (fitsb 2) _ (fitsb_ok 2) _ _ _); vm_compute; reflexivity|].
  split; [unfold busy_run; repeat constructor|].
  split; [unfold busy_run; cbn [In]; intros HC; repeat (destruct HC as [HC|HC]; [discriminate HC|]); exact HC|].
  split; [exact Hfree|]. split; [apply distinct_timesb_ok; exact H|]. split; [apply roomb_ok; exact K4|].
  split; [apply healthyb_ok; exact K3|]. split; [apply clientb_ok; exact K2|]. split; [apply Nat.eqb_eq; exact K1|].
  split; intros E; rewrite E in *; discriminate.
Qed.

Lemma busy_flush_example : exists s s1 s2 s3,
  run2 busy_run (start_ busy_limits) = Next s
  /\ run2 [Request_flush] s = Next s1
  /\ s_client s1 = Flushing /\ live s1 <> [] /\ roomy 2 s1
  /\ along2 (fun e s => usual e s /\ roomy 2 s) (busy_run ++ [Request_flush]) (start_ busy_limits)
  /\ run2 busy_flush s1 = Next s2 /\ along2 usual busy_flush s1 /\ ~ In Crash busy_flush
  /\ collision_free toy_hash (received s2) /\ distinct_times (received s2)
  /\ step toy_hash 2 toy_sort true Return s2 = Next s3.
Proof.
  destruct (run2 busy_run (start_ busy_limits)) as [| |s] eqn:E; try (exfalso; revert E; vm_compute; discriminate).
  destruct (run2 [Request_flush] s) as [| |s1] eqn:E1;
    try (exfalso; revert E1; vm_compute in E; injection E as <-; vm_compute; discriminate).
  destruct (run2 busy_flush s1) as [| |s2] eqn:E2;
    try (exfalso; revert E2; vm_compute in E; injection E as <-; vm_compute in E1; injection E1 as <-; vm_compute; discriminate).
  destruct (step toy_hash 2 toy_sort true Return s2) as [| |s3] eqn:E3;
    try (exfalso; revert E3; vm_compute in E; injection E as <-; vm_compute in E1; injection E1 as <-;
         vm_compute in E2; injection E2 as <-; vm_compute; discriminate).
  exists s, s1, s2, s3. split; [reflexivity|]. split; [exact E1|].
  split; [vm_compute in E; injection E as <-; vm_compute in E1; injection E1 as <-; reflexivity|].
  split; [vm_compute in E; injection E as <-; vm_compute in E1; injection E1 as <-; vm_compute; discriminate|].
  split; [vm_compute in E; injection E as <-; vm_compute in E1; injection E1 as <-; apply roomb_ok; vm_compute; reflexivity|].
  split; [refine (alongb_ok 2 true (fun e s => usualb e s && roomyb 2 s) _ _ _ _ _);
          [intros e s' H; apply andb_true_iff in H; destruct H as [H1 H2];
           split; [apply usualb_ok; exact H1|apply roomb_ok; exact H2]|vm_compute; reflexivity]|].
  split; [exact E2|].
  split; [vm_compute in E; injection E as <-; vm_compute in E1; injection E1 as <-;
          refine (alongb_ok 2 true usualb _ usualb_ok _ _ _); vm_compute; reflexivity|].
  split; [unfold busy_flush; cbn [In]; intros HC; repeat (destruct HC as [HC|HC]; [discriminate HC|]); exact HC|].
  vm_compute in E; injection E as <-; vm_compute in E1; injection E1 as <-; vm_compute in E2; injection E2 as <-.
  split; [apply collision_freeb_ok; vm_compute; reflexivity|]. split; [apply distinct_timesb_ok; vm_compute; reflexivity|exact E3].
Qed.
