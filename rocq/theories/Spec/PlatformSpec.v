(** What is assumed of the platform's base 2 logarithm. Any implementation that is monotone and
    exact for powers of two satisfies it, see [exact_log2_good] in Proofs/MacaqueVLossyProofs. *)
From Coq Require Import ZArith Reals.
From Flocq Require Import Core.
From Verif Require Import Model.Float Spec.ErrorBoundSpec.
Open Scope R_scope.

(** [log2_abs_floor P x] is [floor(|log2(x)|)], where log2 may be rounded. *)
Definition good_log2 (P : platform) : Prop :=
  forall x, finite32 x ->
    (bpow radix2 (-23) <= R32 x < 1 ->
       (0 <= log2_abs_floor P x <= 23)%Z /\ bpow radix2 (- (log2_abs_floor P x + 1)) <= R32 x)
    /\ (1 <= R32 x < 2 -> (0 <= log2_abs_floor P x <= 1)%Z).
