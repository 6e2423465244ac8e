(** Data points that Swing represents with f64 arithmetic. *)
From Coq Require Import ZArith Reals Psatz Lra Bool Lia List Sorting.Sorted.
From Flocq Require Import Core IEEE754.BinarySingleNaN IEEE754.Binary IEEE754.Bits.
From Verif Require Import Model.Base Model.Float Model.ErrorBound Model.Swing
  Spec.ErrorBoundSpec Spec.SwingSpec
  Proofs.FloatProofs Proofs.ErrorBoundProofs Proofs.MacaqueVLossyProofs Proofs.SwingProofs
  Proofs.SwingFloatProofs Proofs.SwingArithmetic Proofs.SwingStored Proofs.SwingBound.
Import ListNotations.
Open Scope R_scope.

Definition example_offered : list (Z * f32) :=
  [(1700000000000000, f32_of_Z 10); (1700000001000000, f32_of_Z 12); (1700000002000000, f32_of_Z 50);
   (1700000003000000, f32_of_Z 16)]%Z.
Definition example_accepted : list (Z * f32) :=
  [(1700000000000000, f32_of_Z 10); (1700000001000000, f32_of_Z 12);
   (1700000003000000, f32_of_Z 16)]%Z.

(** Which data points are accepted. *)
Fixpoint flags (N : num) (m : swing N) (points : list (Z * num_t N)) : list bool :=
  match points with
  | [] => []
  | (t, v) :: points =>
      fst (swing_fit N m t v) :: flags N (snd (swing_fit N m t v)) points
  end.
Fixpoint chosen {A : Type} (fs : list bool) (l : list A) : list A :=
  match fs, l with
  | true :: fs, x :: l => x :: chosen fs l
  | false :: fs, _ :: l => chosen fs l
  | _, _ => []
  end.
Lemma offer_flags : forall N points (m : swing N),
  fst (swing_offer_all N m points) = chosen (flags N m points) points.
Proof.
  intros N points. induction points as [|[t v] points IH]; intros m; [reflexivity|].
  cbn [swing_offer_all flags]. destruct (swing_fit N m t v) as [a m1]. cbn [fst snd chosen].
  rewrite <- IH. destruct (swing_offer_all N m1 points) as [others final]. destruct a; reflexivity.
Qed.

Lemma swing_f64_example :
  (exists m, swing_offer_all (f64_num exact_platform) (swing_new (f64_num exact_platform) (Absolute (f32_of_Z 1)))
     (map (fun p => (fst p, f64_of_f32 (snd p))) example_offered)
   = (map (fun p => (fst p, f64_of_f32 (snd p))) example_accepted, m))
  /\ length example_offered = 4%nat /\ length example_accepted = 3%nat
  /\ StronglySorted (fun t t' => (t + 1000000 <= t')%Z) (map fst example_accepted)
  /\ Forall (fun p => (Z.abs (fst p) <= 1700000003000000)%Z /\ finite32 (snd p)
       /\ Rabs (R32 (snd p)) + exact_deviation (Absolute (f32_of_Z 1)) (R32 (snd p)) <= 101)
       example_accepted
  /\ IZR 1700000003000000 / IZR 1000000 + INR (length example_accepted) <= 2 ^ 44
  /\ rounding 101 1700000003000000 1000000 (length example_accepted)
     <= margin (Absolute (f32_of_Z 1)) 0.
Proof.
  assert (Hz : forall z, (Z.abs z <= 100)%Z -> finite32 (f32_of_Z z) /\ R32 (f32_of_Z z) = IZR z).
  { intros z Hz. apply f32_of_Z_exact. lia. }
  destruct powers as (P22 & P44 & P46 & P148 & _). destruct slop_bounds as (_ & _ & _ & Hh).
  split; [|split; [|split; [|split; [|split; [|split]]]]].
  - rewrite (surjective_pairing (swing_offer_all _ _ _)), offer_flags.
    replace (flags _ _ _) with [true; true; false; true] by (vm_compute; reflexivity).
    eexists. reflexivity.
  - reflexivity.
  - reflexivity.
  - cbn [example_accepted map fst].
    repeat (apply SSorted_cons; [|repeat (apply Forall_cons; [lia|]); apply Forall_nil]).
    apply SSorted_nil.
  - cbn [exact_deviation]. rewrite (proj2 (Hz 1%Z ltac:(lia))).
    unfold example_accepted.
    repeat (apply Forall_cons;
      [cbn [fst snd]; split; [lia|];
       match goal with |- finite32 (f32_of_Z ?z) /\ _ =>
         destruct (Hz z ltac:(lia)) as [Hf Hr]; split; [exact Hf|]; rewrite Hr, Rabs_pos_eq by lra; lra
       end|]). apply Forall_nil.
  - rewrite P44. cbn [example_accepted length INR]. lra.
  - unfold rounding. rewrite P22, P46, P148. cbn [example_accepted length INR margin].
    rewrite (proj2 (Hz 1%Z ltac:(lia))). lra.
Qed.
