(** Which batches a table should have. *)
From Coq Require Import ZArith List Bool String Permutation.
From Verif Require Import Model.Base Model.LogModes.
Import ListNotations.
Open Scope list_scope.

(** If the log is enabled after an event. *)
Definition mode_after {batch} (mode : bool) (e : event batch) : bool :=
  match e with Started enabled => enabled | _ => mode end.

(** The batches that were inserted into a table since it was last emptied, the oldest first, with if
    the log was enabled. *)
Fixpoint inserted {batch} (x : string) (mode : bool) (old : list (batch * bool))
  (es : list (event batch)) : list (batch * bool) :=
  match es with
  | [] => old
  | e :: es =>
      let mode := mode_after mode e in
      inserted x mode
        match e with
        | Inserted y b => if String.eqb x y then old ++ [(b, mode)] else old
        | Truncated y | Dropped y => if String.eqb x y then [] else old
        | _ => old
        end es
  end.

(** All of them and those that were logged. *)
Definition live {batch} (x : string) (es : list (event batch)) : list batch :=
  map fst (inserted x false [] es).
Definition logged {batch} (x : string) (es : list (event batch)) : list batch :=
  map fst (filter snd (inserted x false [] es)).

(** Tables are only emptied while the log is enabled. *)
Fixpoint emptied_with_log {batch} (mode : bool) (es : list (event batch)) : Prop :=
  match es with
  | [] => True
  | e :: es =>
      match e with Truncated _ | Dropped _ => mode = true | _ => True end
      /\ emptied_with_log (mode_after mode e) es
  end.

(** The batches of a table that can be queried or will be after they are saved. *)
Definition visible {batch} (x : string) (w : world batch) : list batch :=
  map fst (match tables w x with Some t => saved t | None => [] end ++ memory w x).

(** The log is enabled whenever the server is started. *)
Definition log_enabled {batch} (e : event batch) : Prop :=
  match e with Started enabled => enabled = true | _ => True end.
