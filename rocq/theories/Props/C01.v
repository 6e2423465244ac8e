(** C01: packing bits loses nothing, for any sequence of writes. *)
From Coq Require Import ZArith List Bool Lia.
From Verif Require Import Model.Base Model.Bits Spec.BitsSpec Proofs.BitsProofs.
Import ListNotations.
Open Scope Z_scope.

(** Whatever is appended, the finished buffer has the minimal number of bytes, reading back
    with the same widths returns the written bits, and only the padding remains. *)
Theorem c01_bits_round_trip :
  forall (ones : bool) (ws : list (Z * nat)),
    Forall wf_write ws ->
    let bytes := finish_as ones (write_all ws builder_new) in
    let padding := (8 * length bytes - total_width ws)%nat in
    Forall is_u8 bytes /\
    length bytes = Nat.div (total_width ws + 7) 8 /\
    match reader_try_new bytes with
    | Ok r =>
        exists r',
          read_all (map snd ws ++ repeat 1%nat padding) r =
            Ok (map (fun w => fst w mod 2 ^ Z.of_nat (snd w)) ws ++
                repeat (Z.b2z ones) padding, r') /\
          reader_is_empty r' = true
    | Err => total_width ws = O
    | Panic => False
    end.
Proof. exact bits_round_trip. Qed.

Definition c01_writes : list (Z * nat) :=
  [(1, 1%nat); (5, 3%nat); (2 ^ 64 - 1, 64%nat); (0, 0%nat); (1000, 9%nat); (77, 13%nat)].

Example c01_example_hypothesis : Forall wf_write c01_writes.
Proof. repeat apply Forall_cons; try apply Forall_nil; unfold wf_write, is_u64; cbn [fst snd]; lia. Qed.

Example c01_example :
  match reader_try_new (finish_as true (write_all c01_writes builder_new)) with
  | Ok r => match read_all (map snd c01_writes) r with
            | Ok (vs, _) => vs = [1; 5; 2 ^ 64 - 1; 0; 488; 77]
            | _ => False
            end
  | _ => False
  end.
Proof. vm_compute. reflexivity. Qed.

Print Assumptions c01_bits_round_trip.
