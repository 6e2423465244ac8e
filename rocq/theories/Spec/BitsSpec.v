(** Specification of bit packing in terms of lists of booleans, independent of bytes. *)
From Coq Require Import ZArith List Bool.
From Verif Require Import Model.Base Model.Bits.
Import ListNotations.
Open Scope Z_scope.

(** The [n] least significant bits of [v], most significant first. *)
Fixpoint bits_of (v : Z) (n : nat) : list bool :=
  match n with
  | O => []
  | S n' => Z.testbit v (Z.of_nat n') :: bits_of v n'
  end.

(** The number a list of bits denotes, most significant first. *)
Definition val_of (l : list bool) : Z :=
  fold_left (fun acc b => 2 * acc + Z.b2z b) l 0.

(** The bits of a buffer of bytes. *)
Definition bytes_bits (bytes : list Z) : list bool :=
  flat_map (fun byte => bits_of byte 8) bytes.

(** A client that appends a sequence of (value, width) pairs. *)
Definition write_all (ws : list (Z * nat)) (b : builder) : builder :=
  fold_left (fun b w => append_bits b (fst w) (Z.of_nat (snd w))) ws b.

(** The API's contract: values are u64 and at most 64 bits are written at a time. *)
Definition wf_write (w : Z * nat) : Prop := is_u64 (fst w) /\ (snd w <= 64)%nat.

(** A client that reads numbers with the given widths. *)
Fixpoint read_all (widths : list nat) (r : reader) : outcome (list Z * reader) :=
  match widths with
  | [] => Ok ([], r)
  | n :: widths =>
      let? (v, r) := read_bits r n in
      let? (vs, r) := read_all widths r in
      Ok (v :: vs, r)
  end.

Definition total_width (ws : list (Z * nat)) : nat := fold_right Nat.add O (map snd ws).

(** The two ways to finish: padding with zeros or with ones. *)
Definition finish_as (ones : bool) (b : builder) : list Z :=
  if ones then finish_with_one_bits b else finish b.
