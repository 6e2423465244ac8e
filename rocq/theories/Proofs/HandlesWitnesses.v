(** Executions of programs in C and Python that show what does not hold, or that hypotheses can be
    met. *)
From Coq Require Import Bool Ascii String List Arith Lia.
From Verif Require Import Model.Handles Spec.HandlesSpec Proofs.HandlesProofs.
Import ListNotations.
Open Scope nat_scope.
Open Scope list_scope.

(** A check for executions in which no address is used twice. *)
Fixpoint apart (seen : list nat) (h : history) : bool :=
  match h with
  | [] => true
  | ((_, c), Pointer p) :: h =>
      match error_of c with
      | None => usable p && negb (existsb (Nat.eqb p) seen)
      | Some _ => true
      end && apart (p :: seen) h
  | _ :: h => apart seen h
  end.
Lemma apart_sound : forall h seen before t c p after,
  apart seen h = true -> h = before ++ ((t, c), Pointer p) :: after -> error_of c = None ->
  usable p = true /\ ~ In p seen /\ forall u d, ~ In ((u, d), Pointer p) before.
Proof.
  induction h as [|[[u d] r] h IH]; intros seen before t c p after A E N; [destruct before; discriminate|].
  destruct before as [|x before]; cbn [app] in E; inversion E; subst; clear E.
  - cbn [apart] in A. rewrite N in A. apply andb_true_iff in A. destruct A as [A _].
    apply andb_true_iff in A. destruct A as [U A]. apply negb_true_iff in A.
    split; [assumption|]. split; [|intros ? ? []].
    intros I. assert (existsb (Nat.eqb p) seen = true); [|congruence].
    apply existsb_exists. exists p. split; [assumption|apply Nat.eqb_refl].
  - destruct r as [n|q|m]; cbn [apart] in A.
    + destruct (IH _ _ _ _ _ _ A eq_refl N) as (U & S & B). split; [assumption|].
      split; [assumption|]. intros v e [I|I]; [discriminate|]. exact (B _ _ I).
    + apply andb_true_iff in A. destruct A as [_ A].
      destruct (IH _ _ _ _ _ _ A eq_refl N) as (U & S & B). split; [assumption|].
      split; [intros I; apply S; right; assumption|].
      intros v e [I|I]; [|exact (B _ _ I)]. inversion I; subst. apply S. left. reflexivity.
    + destruct (IH _ _ _ _ _ _ A eq_refl N) as (U & S & B). split; [assumption|].
      split; [assumption|]. intros v e [I|I]; [discriminate|]. exact (B _ _ I).
Qed.
Lemma apart_allocates : forall h, apart [] h = true -> allocates h.
Proof.
  intros h A before t c p after E N.
  destruct (apart_sound _ _ _ _ _ _ _ A E N) as (U & _ & B). apply usable_iff in U.
  destruct U as [Z M]. split; [assumption|]. split; [assumption|].
  intros k (_ & b & u & d & a & -> & _). apply (B u d). apply in_or_app. right. left. reflexivity.
Qed.

(** A data folder and a client. *)
Definition path : cstring := new_char "/data".
Definition url : cstring := new_char "grpc://127.0.0.1:9999".
Definition two : list event := [(0, OpenLocal path (Allocated 8)); (0, Connect url (Allocated 16))].
Definition missing : string := "Invalid Argument Error: Table with name 't' does not exist.".

(** Closing fails without an error. *)
Definition close_first : list event := [(0, Close 0 true); (0, LastError)].
Definition close_later : list event :=
  two ++ [(0, Drop 8 true (new_char "t") (Some missing)); (0, Close 0 true); (0, LastError)].

(** Copying from a data folder to a node. *)
Definition copy_to_client : call :=
  Copy 8 true (new_char "SELECT * FROM t") 16 (new_char "t")
    (Some "Invalid Argument Error: target is not a data folder."%string).

(** In Python. *)
Definition mixed : list action :=
  [New 0 (OpenLocal path (Allocated 8)); New 1 (Connect url (Allocated 16));
   CallWith 0 1 true (PyCopy "SELECT * FROM t" "t" None)].
Definition temporary : list action :=
  [New 0 (OpenLocal path (Allocated 8)); New 1 (OpenLocal (new_char "/other") (Allocated 16));
   CallWith 0 1 false (PyCopy "SELECT * FROM t" "t" None)].
Definition within : list action :=
  [New 0 (OpenLocal path (Allocated 8)); CallWith 0 0 true (PyCopy "SELECT * FROM t" "u" None)].
Definition apart_program : list action :=
  [New 0 (OpenLocal path (Allocated 8)); New 1 (OpenLocal (new_char "/other") (Allocated 16));
   New 2 (Connect url (Refused "Tonic Transport Error: transport error"));
   New 2 (Connect url (Allocated 24)); Call 2 (PyTables None);
   Call 0 (PyCreate "t" (1, None) (2, None) (3, None) None);
   CallWith 0 1 true (PyCopy "SELECT * FROM t" "t" (Some missing)); Delete 1; Delete 0;
   New 0 (OpenLocal path (Allocated 16)); Call 0 (PyDrop "t" None)].

(** Arrays that are not released. *)
Definition leaking : list event :=
  [(0, OpenMemory (Allocated 8)); (0, Write 8 true None (1, None) None)].
Definition creating : list event :=
  [(0, OpenMemory (Allocated 8));
   (0, Create 8 true (new_char "t") (1, None) (2, None) (3, None) None)].

Lemma close_error_refuted_shown :
  (exists s h, run init close_first = Returned (s, h) /\ allocates h /\
     h = [((0, Close 0 true), Code 1); ((0, LastError), Message None)]) /\
  (exists s h m, run init close_later = Returned (s, h) /\ allocates h /\
     map snd h = [Pointer 8; Pointer 16; Code 1; Code 1; Message (Some m)] /\
     read_message s m = Some missing).
Proof.
  split.
  - eexists _, _. split; [vm_compute; reflexivity|].
    split; [apply apart_allocates; reflexivity|reflexivity].
  - eexists _, _, _. split; [vm_compute; reflexivity|].
    split; [apply apart_allocates; reflexivity|]. split; reflexivity.
Qed.

Lemma copy_refuted_shown :
  exists s h, run init two = Returned (s, h) /\ allocates h /\
    open_in h 8 Folder /\ open_in h 16 Client /\
    operation_problem copy_to_client =
      Some "Invalid Argument Error: target is not a data folder."%string /\
    forall t, step s t copy_to_client = Undefined WrongType.
Proof.
  destruct (run init two) as [[s h]|f] eqn:R; [|discriminate].
  assert (allocates h) as A.
  { apply apart_allocates. assert (h = snd (s, h)) as -> by reflexivity.
    inversion R; subst. reflexivity. }
  destruct (open_iff _ _ _ R A) as [_ I].
  exists s, h. split; [reflexivity|]. split; [assumption|].
  inversion R; subst; clear R. split; [apply I; cbn; auto|].
  split; [apply I; cbn; auto|]. split; reflexivity.
Qed.

Lemma leak_refuted_shown :
  exists s h, run init leaking = Returned (s, h) /\ allocates h /\
    passed leaking = [1] /\ all_released s = [].
Proof.
  eexists _, _. split; [vm_compute; reflexivity|].
  split; [apply apart_allocates; reflexivity|]. split; reflexivity.
Qed.

Lemma schema_leak_refuted_shown :
  exists s h, run init creating = Returned (s, h) /\ allocates h /\
    In (Borrowed 1 None) (flat_map (fun e => arguments (snd e)) creating) /\
    (forall t c, In (t, c) creating -> error_of c = None) /\ ~ In 1 (all_released s).
Proof.
  eexists _, _. split; [vm_compute; reflexivity|].
  split; [apply apart_allocates; reflexivity|]. split; [cbn; auto|]. split.
  - intros t c [I|[I|[]]]; inversion I; reflexivity.
  - cbn. intros [I|[I|[]]]; discriminate.
Qed.

Lemma python_partial_shown : forall program,
  (forall a, In a program -> opened_with a) ->
  (forall p1 a p2 o s, program = p1 ++ a :: p2 -> python_run [] init p1 = Running o s ->
     keeps_apart o a) ->
  forall f, python_run [] init program <> PyUndefined f.
Proof.
  intros program W K f E. pose proof (python_defined program [] init matches_init W K) as P.
  rewrite E in P. exact P.
Qed.

Lemma python_types_refuted_shown :
  (forall a, In a mixed -> opened_with a) /\
  python_run [] init mixed = PyUndefined WrongType.
Proof.
  split; [|reflexivity].
  intros a [<-|[<-|[<-|[]]]]; cbn; auto; intros s [E|[]]; inversion E; eexists; reflexivity.
Qed.

Lemma python_temporary_refuted_shown :
  (forall a, In a temporary -> opened_with a) /\
  python_run [] init temporary = PyUndefined Dangling.
Proof.
  split; [|reflexivity].
  intros a [<-|[<-|[<-|[]]]]; cbn; auto; intros s [E|[]]; inversion E; eexists; reflexivity.
Qed.

Lemma python_within_refuted_shown :
  (forall a, In a within -> opened_with a) /\
  python_run [] init within = PyUndefined Aliased.
Proof.
  split; [|reflexivity].
  intros a [<-|[<-|[]]]; cbn; auto; intros s [E|[]]; inversion E; eexists; reflexivity.
Qed.
