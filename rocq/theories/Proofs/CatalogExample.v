(** A history with crashes. *)
From Coq Require Import ZArith Bool String List Lia Permutation.
From Verif Require Import Model.Base Model.ErrorBound Model.Filters Model.Table Model.Catalog
  Spec.TableSpec Spec.CatalogSpec Proofs.StoredDefinitionProofs Proofs.SerializerExample
  Proofs.DefinitionExample Proofs.CatalogProofs Proofs.CatalogTheorems.
Import ListNotations.
Open Scope nat_scope.
Open Scope string_scope.
Open Scope list_scope.

Definition listed (l : list file) : list file := l.

Lemma turbine_valid : valid_table turbine_table.
Proof. apply (created_valid same_order _ _ _ same_order_enumerates turbine_created). Qed.

(** A normal table is created, data is saved in it, it is dropped with a crash after the last
    change, and another is created. *)
Definition earlier : list event :=
  [Execute (Create_normal "a"); Write "a" 7; Crash (Drop "a") 6; Execute (Create_normal "b")].

Lemma earlier_valid : Forall valid_event earlier.
Proof. repeat constructor. Qed.

Lemma earlier_run : exists s, history example_serializer same_order listed new_server earlier = Ok s
  /\ registered s = ["b"] /\ files_of_table "a" (on_disk s) = [].
Proof. eexists. split; [reflexivity|]. split; reflexivity. Qed.

Lemma turbine_creatable : forall s,
  history example_serializer same_order listed new_server earlier = Ok s ->
  valid_operation (Create_series turbine_table)
  /\ snd (execute example_serializer listed (Create_series turbine_table) s) = Ok tt
  /\ exists g, In (Some g) (generated_columns turbine_table).
Proof.
  intros s E. split; [exact (conj turbine_valid eq_refl)|]. split.
  - pose proof (reachable example_serializer same_order listed example_faithful
      same_order_enumerates (fun l => Permutation_refl l) _ _ earlier_valid E) as Hall.
    assert (A : holds example_serializer (view_of s "wind_turbine") "wind_turbine" Absent).
    { destruct (Hall "wind_turbine") as (st & H). destruct (earlier_run) as (s' & E' & R & _).
      rewrite E in E'. injection E' as <-.
      destruct st as [| | |i m]; [exact H| | |].
      - destruct (leftover_view _ _ _ H) as (fs & rs & V & L & _).
        apply (f_equal v_files) in V. cbn [v_files] in V.
        assert (F : files_of_table "wind_turbine" (on_disk s) = []).
        { vm_compute in E. injection E as <-. reflexivity. }
        change (v_files (view_of s "wind_turbine")) with (files_of_table "wind_turbine" (on_disk s)) in V.
        rewrite F in V. subst fs. discriminate.
      - destruct (normal_view _ _ _ H) as (fs & V & _). apply (f_equal v_registered) in V. cbn in V.
        rewrite R in V. discriminate.
      - destruct (series_view _ _ _ _ _ H) as (fs & rs & V & _). apply (f_equal v_registered) in V.
        cbn in V. rewrite R in V. discriminate. }
    destruct (absent_creatable example_serializer same_order listed example_faithful
      same_order_enumerates (fun l => Permutation_refl l) s "wind_turbine" A) as (_ & C).
    destruct (C turbine_table turbine_valid eq_refl eq_refl) as (s' & n & Ex & _). now rewrite Ex.
  - eexists. right. right. left. reflexivity.
Qed.

Lemma blocked_forever : exists ser ord del s m s',
  faithful ser /\ enumerates ord /\ (forall l, Permutation (del l) l) /\ valid_operation (Create_series m)
  /\ history ser ord del new_server earlier = Ok s
  /\ start ser ord (crash ser del (Create_series m) 1 s) = Ok s'
  /\ forall later s'', Forall valid_event later -> history ser ord del s' later = Ok s'' ->
       absent s'' (table_name m) /\ blocked ser del s'' (table_name m).
Proof.
  destruct earlier_run as (s & E & _). destruct (turbine_creatable s E) as (V & Ex & _).
  destruct (create_crash example_serializer same_order listed example_faithful
    same_order_enumerates (fun l => Permutation_refl l) earlier s turbine_table 1 earlier_valid E V Ex)
    as (s' & Es & _ & P & _).
  exists example_serializer, same_order, listed, s, turbine_table, s'.
  split; [exact example_faithful|]. split; [exact same_order_enumerates|].
  split; [exact (fun l => Permutation_refl l)|]. split; [exact V|]. split; [exact E|].
  split; [exact Es|]. apply P. reflexivity.
Qed.
