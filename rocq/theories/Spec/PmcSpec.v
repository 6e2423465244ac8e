(** Fitting a constant function model to values, one after the other. *)
From Coq Require Import List Reals.
From Verif Require Import Model.Float Model.Pmc Spec.ErrorBoundSpec.
Import ListNotations.
Open Scope R_scope.

(** The state after all values have been accepted, [None] if one was rejected. *)
Fixpoint pmc_fit_all (P : platform) (m : pmc) (values : list f32) : option pmc :=
  match values with
  | [] => Some m
  | v :: values =>
      match pmc_fit_value P m v with
      | (true, m') => pmc_fit_all P m' values
      | (false, _) => None
      end
  end.

(** The values that are accepted when all values are offered one after the other, no matter if
    others are rejected, and the state afterwards. *)
Fixpoint pmc_offer_all (P : platform) (m : pmc) (values : list f32) : list f32 * pmc :=
  match values with
  | [] => ([], m)
  | v :: values =>
      let (accepted, m') := pmc_fit_value P m v in
      let (others, final) := pmc_offer_all P m' values in
      (if accepted then v :: others else others, final)
  end.

(** All values have the same sign and none is zero. *)
Definition same_sign (values : list f32) : Prop :=
  (forall v, In v values -> finite32 v -> 0 < R32 v)
  \/ (forall v, In v values -> finite32 v -> R32 v < 0).
