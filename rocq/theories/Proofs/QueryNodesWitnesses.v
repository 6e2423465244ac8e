(** Clusters with nodes that execute queries. *)
From Coq Require Import ZArith Bool String List.
From Verif Require Import Model.QueryNodes Spec.QueryNodesSpec.
Import ListNotations.
Open Scope Z_scope.
Open Scope string_scope.
Open Scope list_scope.

(** An edge node and two cloud nodes, one of which replaces another. *)
Definition before : list event :=
  [Start "grpc://a:9999" Edge []; Start "grpc://b:9999" Cloud []; Ready 1; Remove 1; Exit 1; Ready 0;
   Start "grpc://b:9999" Cloud [7]; Start "grpc://c:9999" Cloud []; Ready 2; Ready 3; Insert 0 1;
   Insert 0 2; Transfer 0; Insert 0 3].
Definition after : list event :=
  [Insert 0 4; Start "grpc://d:9999" Edge []; Transfer 0; Remove 3; Ready 4].

(** Checks of the conditions. *)
Fixpoint alongb (P : event -> cluster -> bool) (events : list event) (c : cluster) : bool :=
  match events with
  | [] => true
  | e :: events => P e c && match step e c with Some c => alongb P events c | None => true end
  end.
Lemma alongb_ok : forall Pb (P : event -> cluster -> Prop), (forall e c, Pb e c = true -> P e c) ->
  forall events c, alongb Pb events c = true -> along P events c.
Proof.
  intros Pb P H events. induction events as [|e events IH]; intros c E; [exact I|].
  cbn [alongb along] in *. apply andb_true_iff in E. destruct E as [E0 E]. split; [exact (H _ _ E0)|].
  destruct (step e c); [exact (IH _ E) | exact I].
Qed.
Definition ended (p : process) : bool := match at_stage p with Ended => true | _ => false end.
Definition distinctb (e : event) (c : cluster) : bool :=
  match e with
  | Start u _ _ => forallb (fun p => negb (String.eqb (url p) u) || ended p) (processes c)
  | _ => true
  end.
Lemma distinctb_ok : forall events c, alongb distinctb events c = true ->
  along distinct_urls events c.
Proof.
  apply alongb_ok. intros e c H. destruct e; try exact I. cbn in *. intros p Hp <-.
  rewrite forallb_forall in H. specialize (H p Hp). rewrite String.eqb_refl in H. cbn in H.
  unfold ended in H. now destruct (at_stage p).
Qed.
Definition failureb (e : event) (c : cluster) : bool :=
  match e with Fail _ => false | _ => true end.
Lemma failureb_ok : forall events c, alongb failureb events c = true -> along no_failure events c.
Proof. apply alongb_ok. intros e c H. destruct e; try exact I. discriminate. Qed.
Definition startingb (c : cluster) : bool :=
  forallb (fun p => match at_stage p with Starting => false | _ => true end) (processes c).
Lemma startingb_ok : forall c, startingb c = true -> none_starting c.
Proof.
  intros c H p Hp E. unfold startingb in H. rewrite forallb_forall in H. specialize (H p Hp).
  now rewrite E in H.
Qed.

Lemma executed_case :
  exists c c2 c3, run before (new [0]) = Some c /\ run (Ask 0 1 :: after) c = Some c2
    /\ along distinct_urls (before ++ Ask 0 1 :: after) (new [0])
    /\ along no_failure before (new [0]) /\ none_starting c /\ Forall none_ends after
    /\ nth_error (queries c2) 0 = Some (Query (Some "grpc://c:9999") Waiting)
    /\ remote c = [2; 1; 0] /\ listed c2 = [("grpc://a:9999", Edge); ("grpc://b:9999", Cloud);
                                            ("grpc://d:9999", Edge)]
    /\ step (Answer 0 3) c2 = Some c3
    /\ nth_error (queries c3) 0 = Some (Query (Some "grpc://c:9999") (Rows [4; 3; 2; 1; 0])).
Proof.
  eexists _, _, _. split; [vm_compute; reflexivity|]. split; [vm_compute; reflexivity|].
  split; [apply distinctb_ok; vm_compute; reflexivity|].
  split; [apply failureb_ok; vm_compute; reflexivity|].
  split; [apply startingb_ok; vm_compute; reflexivity|].
  split; [repeat constructor|]. split; [reflexivity|]. split; [reflexivity|].
  split; [reflexivity|]. split; vm_compute; reflexivity.
Qed.

(** A cloud node that crashed is listed. *)
Lemma crashed_case :
  let events := [Start "grpc://a:9999" Edge []; Start "grpc://b:9999" Cloud []; Ready 0; Ready 1;
                 Fail 1] in
  exists c c1 c2, run events (new [5]) = Some c /\ along distinct_urls events (new [5])
    /\ none_starting c /\ step (Ask 0 0) c = Some c1 /\ step (Give_up 0) c1 = Some c2
    /\ queries c2 = [Query (Some "grpc://b:9999") Unreachable].
Proof.
  eexists _, _, _. split; [vm_compute; reflexivity|].
  split; [apply distinctb_ok; vm_compute; reflexivity|].
  split; [apply startingb_ok; vm_compute; reflexivity|].
  split; [vm_compute; reflexivity|]. split; vm_compute; reflexivity.
Qed.

(** A node that is started in another mode after it crashed is listed with both, and a node that was
    started twice is chosen twice as often. *)
Lemma mode_case :
  let events := [Start "grpc://a:9999" Cloud []; Ready 0; Insert 0 1; Transfer 0; Fail 0;
                 Start "grpc://a:9999" Edge [9]; Ready 1] in
  exists c c1 c2, run events (new []) = Some c /\ along distinct_urls events (new [])
    /\ none_starting c /\ remote c = [1] /\ step (Ask 1 0) c = Some c1
    /\ step (Answer 0 1) c1 = Some c2
    /\ queries c2 = [Query (Some "grpc://a:9999") (Rows [9])].
Proof.
  eexists _, _, _. split; [vm_compute; reflexivity|].
  split; [apply distinctb_ok; vm_compute; reflexivity|].
  split; [apply startingb_ok; vm_compute; reflexivity|].
  split; [reflexivity|]. split; [vm_compute; reflexivity|]. split; vm_compute; reflexivity.
Qed.

Lemma twice_case :
  let events := [Start "grpc://a:9999" Cloud []; Ready 0; Fail 0; Start "grpc://a:9999" Cloud [];
                 Ready 1; Start "grpc://b:9999" Cloud []; Ready 2] in
  exists c, run events (new []) = Some c /\ along distinct_urls events (new [])
    /\ forall k, k = 0%nat \/ k = 1%nat -> exists c1, step (Ask 1 k) c = Some c1
         /\ queries c1 = [Query (Some "grpc://a:9999") Waiting].
Proof.
  eexists. split; [vm_compute; reflexivity|].
  split; [apply distinctb_ok; vm_compute; reflexivity|].
  intros k [K|K]; subst k; eexists; (split; [vm_compute; reflexivity | reflexivity]).
Qed.

(** A node is listed before it accepts requests. *)
Lemma starting_case :
  let events := [Start "grpc://a:9999" Edge []; Ready 0; Start "grpc://b:9999" Cloud []] in
  exists c c1 c2, run events (new [5]) = Some c /\ along distinct_urls events (new [5])
    /\ along no_failure events (new [5]) /\ step (Ask 0 0) c = Some c1
    /\ step (Give_up 0) c1 = Some c2
    /\ queries c2 = [Query (Some "grpc://b:9999") Unreachable].
Proof.
  eexists _, _, _. split; [vm_compute; reflexivity|].
  split; [apply distinctb_ok; vm_compute; reflexivity|].
  split; [apply failureb_ok; vm_compute; reflexivity|].
  split; [vm_compute; reflexivity|]. split; vm_compute; reflexivity.
Qed.

(** Two nodes on different hosts that are both started with the default host. *)
Definition default_host : list event :=
  [Start "grpc://127.0.0.1:9999" Edge []; Ready 0; Start "grpc://127.0.0.1:9999" Cloud []; Ready 1].
Lemma default_case :
  exists c c1 c2, run (default_host ++ [Insert 0 1; Transfer 0]) (new []) = Some c
    /\ along no_failure (default_host ++ [Insert 0 1; Transfer 0]) (new [])
    /\ none_starting c /\ remote c = [1] /\ step (Ask 0 0) c = Some c1
    /\ step (Answer 0 0) c1 = Some c2
    /\ queries c2 = [Query (Some "grpc://127.0.0.1:9999") (Rows [])].
Proof.
  eexists _, _, _. split; [vm_compute; reflexivity|].
  split; [apply failureb_ok; vm_compute; reflexivity|].
  split; [apply startingb_ok; vm_compute; reflexivity|].
  split; [reflexivity|]. split; [vm_compute; reflexivity|]. split; vm_compute; reflexivity.
Qed.
Definition three_hosts : list event :=
  [Start "grpc://127.0.0.1:9999" Edge []; Ready 0; Start "grpc://127.0.0.1:9999" Cloud []; Ready 1;
   Start "grpc://c:9999" Edge []; Ready 2; Remove 0; Exit 0].
Lemma unlisted_case :
  exists c c1, run three_hosts (new []) = Some c /\ along no_failure three_hosts (new [])
    /\ available "grpc://127.0.0.1:9999" c /\ step (Ask 2 0) c = Some c1
    /\ queries c1 = [Query None Waiting].
Proof.
  eexists _, _. split; [vm_compute; reflexivity|].
  split; [apply failureb_ok; vm_compute; reflexivity|].
  split; [eexists; split; [right; left; reflexivity|]; cbn; auto|].
  split; vm_compute; reflexivity.
Qed.

(** The assigned node ends before the query is executed. *)
Lemma ended_case :
  let events := [Start "grpc://a:9999" Cloud []; Ready 0; Start "grpc://b:9999" Cloud []; Ready 1;
                 Ask 0 1; Remove 1; Exit 1; Give_up 0] in
  exists c, run events (new []) = Some c /\ along distinct_urls events (new [])
    /\ along no_failure events (new [])
    /\ queries c = [Query (Some "grpc://b:9999") Unreachable].
Proof.
  eexists. split; [vm_compute; reflexivity|].
  split; [apply distinctb_ok; vm_compute; reflexivity|].
  split; [apply failureb_ok; vm_compute; reflexivity|]. reflexivity.
Qed.

Lemma available_case :
  let events := [Start "grpc://a:9999" Edge []; Ready 0; Start "grpc://b:9999" Cloud []; Ready 1;
                 Fail 1; Start "grpc://b:9999" Cloud []; Ready 2] in
  exists c, run events (new []) = Some c /\ along distinct_urls events (new [])
    /\ (exists p, nth_error (processes c) 0 = Some p /\ at_stage p = Running)
    /\ available "grpc://b:9999" c /\ expected "grpc://b:9999" events = [Cloud; Cloud].
Proof.
  eexists. split; [vm_compute; reflexivity|].
  split; [apply distinctb_ok; vm_compute; reflexivity|].
  split; [eexists; split; reflexivity|].
  split; [eexists; split; [right; right; left; reflexivity|]; cbn; auto|]. reflexivity.
Qed.
