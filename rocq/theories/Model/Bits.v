(** Model of crates/modelardb_compression/src/models/bits.rs: reading and writing bits. *)
From Coq Require Import ZArith List Bool.
From Verif Require Import Model.Base.
Import ListNotations.
Open Scope Z_scope.

(** [BitReader], bits.rs l.25-30. *)
Record reader : Type := Reader { next_bit : nat; r_bytes : list Z }.

(** [BitReader::try_new], bits.rs l.34-42. *)
Definition reader_try_new (bytes : list Z) : outcome reader :=
  match bytes with [] => Err | _ => Ok (Reader 0 bytes) end.

(** [BitReader::is_empty], bits.rs l.45-47. *)
Definition reader_is_empty (r : reader) : bool :=
  Nat.eqb (Nat.div (next_bit r) 8) (length (r_bytes r)).

(** [BitReader::remaining_bits], bits.rs l.50-52. The subtraction on usize cannot underflow
    because [next_bit] never passes the end (an out of range read panics first). *)
Definition remaining_bits (r : reader) : nat := (8 * length (r_bytes r) - next_bit r)%nat.

(** The loop of [BitReader::read_bits], bits.rs l.70-79; indexing out of range panics. *)
Fixpoint read_loop (bytes : list Z) (bit n : nat) (value : Z) : outcome Z :=
  match n with
  | O => Ok value
  | S n' =>
      match nth_error bytes (Nat.div bit 8) with
      | None => Panic
      | Some byte =>
          let shift := Z.of_nat (7 - Nat.modulo bit 8) in
          let b := Z.land (Z.shiftr byte shift) 1 in
          read_loop bytes (S bit) n' (Z.lor (u64 (Z.shiftl value 1)) b)
      end
  end.

(** [BitReader::read_bits], bits.rs l.61-82. *)
Definition read_bits (r : reader) (number_of_bits : nat) : outcome (Z * reader) :=
  let? v := read_loop (r_bytes r) (next_bit r) number_of_bits 0 in
  Ok (v, Reader (next_bit r + number_of_bits) (r_bytes r)).

(** [BitReader::read_bit], bits.rs l.55-57. *)
Definition read_bit (r : reader) : outcome (bool * reader) :=
  let? (v, r') := read_bits r 1 in Ok (Z.eqb v 1, r').

(** [BitVecBuilder], bits.rs l.86-93. *)
Record builder : Type := Builder { current_byte : Z; remaining : Z; b_bytes : list Z }.

(** [BitVecBuilder::new], bits.rs l.96-102. *)
Definition builder_new : builder := Builder 0 8 [].

(** Store the current byte if it is full, bits.rs l.134-139. *)
Definition push_if_full (cur rem : Z) (bytes : list Z) : builder :=
  if rem =? 0 then Builder 0 8 (bytes ++ [cur]) else Builder cur rem bytes.

(** One iteration of the loop in [append_bits], bits.rs l.119-139: the new builder and the
    number of bits that remain to be written. Shift amounts of u64 are taken modulo 64. *)
Definition append_step (b : builder) (bits n : Z) : builder * Z :=
  if remaining b <? n then
    (* bits.rs l.120-123 *)
    let shift := n - remaining b in
    let cur := Z.lor (current_byte b)
                 (u8 (Z.land (Z.shiftr bits (shift mod 64)) (2 ^ remaining b - 1))) in
    (push_if_full cur (remaining b - remaining b) (b_bytes b), n - remaining b)
  else
    (* bits.rs l.125-129 *)
    let shift := remaining b - n in
    let mask := Z.shiftr 255 (8 - remaining b) in
    let cur := Z.lor (current_byte b)
                 (u8 (Z.land (u64 (Z.shiftl bits (shift mod 64))) mask)) in
    (push_if_full cur (remaining b - n) (b_bytes b), n - n).

(** The loop of [append_bits], bits.rs l.118-140. Every iteration writes at least one bit, so
    [n] iterations always suffice (proved: the result does not depend on the fuel). *)
Fixpoint append_loop (fuel : nat) (b : builder) (bits n : Z) : builder :=
  match fuel with
  | O => b
  | S fuel' =>
      if 0 <? n then let '(b', n') := append_step b bits n in append_loop fuel' b' bits n'
      else b
  end.

(** [BitVecBuilder::append_bits], bits.rs l.115-141. *)
Definition append_bits (b : builder) (bits n : Z) : builder :=
  append_loop (Z.to_nat n) b bits n.

(** [append_a_zero_bit] and [append_a_one_bit], bits.rs l.105-112. *)
Definition append_a_zero_bit (b : builder) : builder := append_bits b 0 1.
Definition append_a_one_bit (b : builder) : builder := append_bits b 1 1.

(** [BitVecBuilder::is_empty], bits.rs l.145-147. *)
Definition builder_is_empty (b : builder) : bool :=
  match b_bytes b with [] => true | _ => false end.

(** [BitVecBuilder::finish], bits.rs l.157-162. *)
Definition finish (b : builder) : list Z :=
  if remaining b =? 8 then b_bytes b else b_bytes b ++ [current_byte b].

(** [BitVecBuilder::finish_with_one_bits], bits.rs l.167-173. *)
Definition finish_with_one_bits (b : builder) : list Z :=
  if remaining b =? 8 then finish b
  else finish (append_bits b (2 ^ remaining b - 1) (remaining b)).
