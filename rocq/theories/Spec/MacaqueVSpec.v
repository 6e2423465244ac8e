(** The values MacaqueV can rewrite safely for an error bound. *)
From Coq Require Import ZArith Reals.
From Flocq Require Import Core.
From Verif Require Import Model.Float Model.ErrorBound Spec.ErrorBoundSpec.
Open Scope R_scope.

(** Infinities, NaN and zeros always; for an absolute bound values of at most 8 million times the
    bound; for a relative bound of at least 1/80000 percent values that are not tiny. *)
Definition rewritable (eb : error_bound) (v : f32) : Prop :=
  ~ finite32 v \/ R32 v = 0 \/
  match eb with
  | Absolute e => bpow radix2 (-125) <= R32 e /\ Rabs (R32 v) <= 8000000 * R32 e
  | Relative e => / 80000 <= R32 e /\ bpow radix2 (-100) <= Rabs (R32 v)
  | Lossless => True
  end.
