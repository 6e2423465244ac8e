(** What the locks of a server should ensure. *)
From Coq Require Import List Bool Arith.
From Verif Require Import Model.ServerLocks.
Import ListNotations.

(** Requests that have been answered, and that have not. *)
Definition answered (t : task) : Prop := rest t = [].
Definition all_answered (s : state) : Prop := Forall answered (tasks s).
Definition pending (i : nat) (s : state) : Prop :=
  exists t, nth_error (tasks s) i = Some t /\ rest t <> [].

(** A request goes on. *)
Definition proceeds (e : event) : bool :=
  match e with Ask _ | Grant _ | Continue _ => true | Fail _ | Cancel _ => false end.

(** No request can go on. *)
Definition blocked (s : state) : Prop := forall e, proceeds e = true -> step e s = None.

(** What has to be done for all requests. *)
Definition size (programs : list (list action)) : nat := length (concat programs).

(** Requests that change the configuration. *)
Definition updates (r : request) : bool :=
  match r with Update_memory _ | Update_transfer | Update_segment_size => true | _ => false end.

(** Requests that create, drop or truncate time series tables, and those to stop the server. *)
Definition of_series (r : request) : bool :=
  match r with
  | Create_series => true
  | Drop tables | Truncate tables => existsb fst tables
  | _ => false
  end.
Definition kills (r : request) : bool := match r with Kill_node _ => true | _ => false end.

(** Requests that change the storage engine when they change the configuration, and requests that
    drop or truncate any tables. *)
Definition updates_storage (r : request) : bool :=
  match r with Update_memory _ | Update_transfer => true | _ => false end.
Definition of_tables (r : request) : bool :=
  match r with Drop (_ :: _) | Truncate (_ :: _) => true | _ => false end.

(** The requests do not change the configuration, or they do not create, drop or truncate time
    series tables and either do not stop the server or change nothing but the segment size and drop
    and truncate no tables at all. *)
Definition harmless (requests : list request) : Prop :=
  existsb updates requests = false
  \/ existsb of_series requests = false
     /\ (existsb kills requests = false
         \/ existsb updates_storage requests = false /\ existsb of_tables requests = false).

(** Whatever happens, all requests can be answered. *)
Definition answerable (s : state) : Prop :=
  exists later s', Forall (fun e => proceeds e = true) later /\ run later s = Some s' /\ all_answered s'.

(** Requests that begin by reading the configuration, or by using the storage engine. *)
Definition needs_configuration (r : request) : Prop :=
  forall logging, exists m l, program logging r = Acquire Configuration m :: l.
Definition needs_storage (r : request) : Prop :=
  forall logging, exists m l, program logging r = Acquire Storage m :: l.

(** The client of a request does not give up. *)
Definition waits (i : nat) (events : list event) : Prop := ~ In (Cancel i) events.

(** Two requests hold a lock at the same time, one of them to write. *)
Definition shared_write (s : state) : Prop :=
  exists i j t u l m, i <> j /\ nth_error (tasks s) i = Some t /\ nth_error (tasks s) j = Some u
    /\ In (l, Write) (held t) /\ In (l, m) (held u).
