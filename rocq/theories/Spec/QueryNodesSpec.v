(** Which nodes should execute queries. *)
From Coq Require Import ZArith Bool String List.
From Verif Require Import Model.QueryNodes.
Import ListNotations.
Open Scope list_scope.

(** The url and mode of each process in the order in which they were started. *)
Fixpoint started (events : list event) : list (string * mode) :=
  match events with
  | [] => []
  | Start u m _ :: events => (u, m) :: started events
  | _ :: events => started events
  end.

(** The modes in which nodes were started at a url since one was last removed there. *)
Fixpoint since_removal (u : string) (known : list (string * mode)) (modes : list mode)
    (events : list event) : list mode :=
  match events with
  | [] => modes
  | Start v m _ :: events =>
      since_removal u (known ++ [(v, m)]) (if String.eqb v u then modes ++ [m] else modes) events
  | Remove p :: events =>
      since_removal u known
        (match nth_error known p with
         | Some (v, _) => if String.eqb v u then [] else modes
         | None => modes
         end) events
  | _ :: events => since_removal u known modes events
  end.
Definition expected (u : string) (events : list event) : list mode := since_removal u [] [] events.

(** Something is true of each event in the state in which it happens. *)
Fixpoint along (P : event -> cluster -> Prop) (events : list event) (c : cluster) : Prop :=
  match events with
  | [] => True
  | e :: events =>
      P e c /\ match step e c with Some c => along P events c | None => True end
  end.

(** Processes that have not ended have different urls. *)
Definition distinct_urls (e : event) (c : cluster) : Prop :=
  match e with
  | Start u _ _ => forall p, In p (processes c) -> url p = u -> at_stage p = Ended
  | _ => True
  end.

(** No process fails before it has been removed. *)
Definition no_failure (e : event) (c : cluster) : Prop :=
  match e with
  | Fail i => exists p, nth_error (processes c) i = Some p /\ at_stage p = Leaving
  | _ => True
  end.

(** No node is being started. *)
Definition none_starting (c : cluster) : Prop :=
  forall p, In p (processes c) -> at_stage p <> Starting.
(** No process ends. *)
Definition none_ends (e : event) : Prop :=
  match e with Fail _ | Exit _ => False | _ => True end.

(** A cloud node that accepts requests. *)
Definition available (u : string) (c : cluster) : Prop :=
  exists p, In p (processes c) /\ url p = u /\ as_mode p = Cloud /\ at_stage p = Running.
