(** What a caller of the timestamp codec provides: at least one timestamp, all representable as
    i64, strictly increasing. *)
From Coq Require Import ZArith List Sorting.Sorted.
From Verif Require Import Model.Base.
Import ListNotations.
Open Scope Z_scope.

Definition strictly_increasing (ts : list Z) : Prop := StronglySorted Z.lt ts.

(** Rust slices have fewer than [isize::MAX] elements. *)
Definition valid_timestamps (ts : list Z) : Prop :=
  ts <> [] /\ Forall is_i64 ts /\ strictly_increasing ts /\ Z.of_nat (length ts) < 2 ^ 63.

Definition first_timestamp (ts : list Z) : Z := hd 0 ts.
Definition last_timestamp (ts : list Z) : Z := last ts 0.
