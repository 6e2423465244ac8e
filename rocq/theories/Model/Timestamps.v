(** Model of crates/modelardb_compression/src/models/timestamps.rs: the timestamps of a segment
    are stored as start time, end time and the bytes computed here. Timestamps are i64. *)
From Coq Require Import ZArith List Bool.
From Verif Require Import Model.Base Model.Bits.
Import ListNotations.
Open Scope Z_scope.

(** The loop of [are_uncompressed_timestamps_regular], timestamps.rs l.88-93. *)
Fixpoint regular_loop (expected previous : Z) (ts : list Z) : bool :=
  match ts with
  | [] => true
  | t :: ts => if i64 (t - previous) =? expected then regular_loop expected t ts else false
  end.

(** [are_uncompressed_timestamps_regular], timestamps.rs l.77-95. *)
Definition are_uncompressed_timestamps_regular (ts : list Z) : bool :=
  match ts with
  | t0 :: t1 :: _ => regular_loop (i64 (t1 - t0)) t0 (tl ts)
  | _ => true
  end.

(** [usize::to_be_bytes], used in timestamps.rs l.105. *)
Definition to_be_bytes (v : Z) : list Z :=
  map (fun i => Z.shiftr v (8 * i) mod 256) [7; 6; 5; 4; 3; 2; 1; 0].

(** [usize::from_be_bytes], used in timestamps.rs l.218 and mod.rs l.112. *)
Definition from_be_bytes (bytes : list Z) : Z := fold_left (fun acc b => 256 * acc + b) bytes 0.

(** [compress_regular_residual_timestamps], timestamps.rs l.99-108. [64 - leading_zeros] of a
    positive length is [Z.log2 length + 1]; the division by 8.0 and [ceil] are exact in f64. *)
Definition compress_regular_residual_timestamps (ts : list Z) : list Z :=
  let length := Z.of_nat (length ts) in
  let number_of_bits_to_write := Z.log2 length + 1 + 1 in
  let number_of_bytes_to_write := (number_of_bits_to_write + 7) / 8 in
  skipn (Z.to_nat (8 - number_of_bytes_to_write)) (to_be_bytes length).

(** The match on the delta-of-delta, timestamps.rs l.124-146. *)
Definition append_delta_of_delta (b : builder) (dod : Z) : builder :=
  if dod =? 0 then append_a_zero_bit b
  else if (-63 <=? dod) && (dod <=? 64) then append_bits (append_bits b 2 2) (u64 dod) 7
  else if (-255 <=? dod) && (dod <=? 256) then append_bits (append_bits b 6 3) (u64 dod) 9
  else if (-2047 <=? dod) && (dod <=? 2048) then append_bits (append_bits b 14 4) (u64 dod) 12
  else if (-2147483647 <=? dod) && (dod <=? 2147483648) then
    append_bits (append_bits b 30 5) (u64 dod) 32
  else append_bits (append_bits b 31 5) (u64 dod) 64.

(** The loop of [compress_irregular_residual_timestamps], timestamps.rs l.121-149. *)
Fixpoint compress_irregular_loop (b : builder) (last_timestamp last_delta : Z) (ts : list Z)
  : builder :=
  match ts with
  | [] => b
  | t :: ts =>
      let delta := i64 (t - last_timestamp) in
      let delta_of_delta := i64 (delta - last_delta) in
      compress_irregular_loop (append_delta_of_delta b delta_of_delta) t delta ts
  end.

(** [compress_irregular_residual_timestamps], timestamps.rs l.113-155: the timestamps from the
    second to the second to last. It is only called with at least three timestamps. *)
Definition compress_irregular_residual_timestamps (ts : list Z) : list Z :=
  let b := append_a_one_bit builder_new in
  let first := hd 0 ts in
  let middle := removelast (tl ts) in
  finish_with_one_bits (compress_irregular_loop b first 0 middle).

(** [compress_residual_timestamps], timestamps.rs l.56-73. *)
Definition compress_residual_timestamps (ts : list Z) : list Z :=
  if (length ts <=? 2)%nat then []
  else if are_uncompressed_timestamps_regular ts then compress_regular_residual_timestamps ts
  else compress_irregular_residual_timestamps ts.

(** [are_compressed_timestamps_regular], timestamps.rs l.199-202. *)
Definition are_compressed_timestamps_regular (residual : list Z) : bool :=
  match residual with [] => true | byte :: _ => Z.land byte 128 =? 0 end.

(** Copying the residual bytes to the end of eight zero bytes, timestamps.rs l.213-218 and
    mod.rs l.108-112; slicing panics if there are more than eight bytes. *)
Definition decode_length (residual : list Z) : outcome Z :=
  if (8 <? length residual)%nat then Panic
  else Ok (from_be_bytes (repeat 0 (8 - length residual) ++ residual)).

(** [(start..=end).step_by(step)] for i64; [step_by] panics if the step is zero. *)
Definition step_by (start end_ step : Z) : outcome (list Z) :=
  if step =? 0 then Panic
  else if end_ <? start then Ok []
  else Ok (map (fun k => start + Z.of_nat k * step)
               (seq 0 (Z.to_nat ((end_ - start) / step + 1)))).

(** [decompress_all_regular_timestamps], timestamps.rs l.207-223; the cast to usize makes the
    division unsigned and [length - 1] wraps; division by zero panics. *)
Definition decompress_all_regular_timestamps (start_time end_time : Z) (residual : list Z)
  : outcome (list Z) :=
  let? length := decode_length residual in
  let divisor := u64 (length - 1) in
  if divisor =? 0 then Panic
  else step_by start_time end_time (u64 (end_time - start_time) / divisor).

(** [read_decode_and_compute_delta], timestamps.rs l.283-292; deltas are u64 here. *)
Definition read_decode_and_compute_delta (r : reader) (bits_to_read : nat) (last_delta : Z)
  : outcome (Z * reader) :=
  let? (encoded, r) := read_bits r bits_to_read in
  let n := Z.of_nat bits_to_read in
  let delta_of_delta :=
    if 2 ^ (n - 1) <? encoded then Z.lor encoded (u64 (Z.shiftl (2 ^ 128 - 1) n))
    else encoded in
  Ok (u64 (last_delta + delta_of_delta), r).

(** The loop reading the flag, timestamps.rs l.246-248: stops after [fuel] = 5 one bits, at the
    end of the bytes, or after reading a zero bit. *)
Fixpoint read_leading_one_bits (fuel : nat) (leading : nat) (r : reader) : outcome (nat * reader) :=
  match fuel with
  | O => Ok (leading, r)
  | S fuel =>
      if reader_is_empty r then Ok (leading, r)
      else let? (bit, r) := read_bit r in
           if bit then read_leading_one_bits fuel (S leading) r else Ok (leading, r)
  end.

(** The loop of [decompress_all_irregular_timestamps], timestamps.rs l.243-271. Every iteration
    reads at least one bit, so the number of bits plus one is enough fuel; running out of fuel
    is reported as [Panic] and never happens in the theorems. *)
Fixpoint decompress_irregular_loop (fuel : nat) (r : reader) (last_delta timestamp : Z)
  : outcome (list Z) :=
  match fuel with
  | O => Panic
  | S fuel =>
      if reader_is_empty r then Ok []
      else
        let? (leading, r) := read_leading_one_bits 5 0 r in
        if negb (leading =? 0)%nat && (remaining_bits r <? 7)%nat then Ok []
        else
          let? (delta, r) :=
            match leading with
            | 0%nat => Ok (last_delta, r)
            | 1%nat => read_decode_and_compute_delta r 7 last_delta
            | 2%nat => read_decode_and_compute_delta r 9 last_delta
            | 3%nat => read_decode_and_compute_delta r 12 last_delta
            | 4%nat => read_decode_and_compute_delta r 32 last_delta
            | 5%nat => read_decode_and_compute_delta r 64 last_delta
            | _ => Panic
            end in
          let timestamp := i64 (timestamp + i64 delta) in
          let? rest := decompress_irregular_loop fuel r delta timestamp in
          Ok (timestamp :: rest)
  end.

(** [decompress_all_irregular_timestamps], timestamps.rs l.228-275. *)
Definition decompress_all_irregular_timestamps (start_time end_time : Z) (residual : list Z)
  : outcome (list Z) :=
  let? r := match reader_try_new residual with Ok r => Ok r | _ => Panic end in
  let? (_, r) := read_bit r in
  let? middle := decompress_irregular_loop (S (8 * length residual)) r 0 start_time in
  Ok (start_time :: middle ++ [end_time]).

(** [decompress_all_timestamps], timestamps.rs l.163-195: the timestamps that are appended to
    the builder. *)
Definition decompress_all_timestamps (start_time end_time : Z) (residual : list Z)
  : outcome (list Z) :=
  match residual with
  | [] => if start_time =? end_time then Ok [start_time] else Ok [start_time; end_time]
  | _ =>
      if are_compressed_timestamps_regular residual then
        decompress_all_regular_timestamps start_time end_time residual
      else decompress_all_irregular_timestamps start_time end_time residual
  end.

(** [models::len], models/mod.rs l.98-124. *)
Definition len (start_time end_time : Z) (residual : list Z) : outcome Z :=
  match residual with
  | [] => if start_time =? end_time then Ok 1 else Ok 2
  | _ =>
      if are_compressed_timestamps_regular residual then decode_length residual
      else let? ts := decompress_all_timestamps start_time end_time residual in
           Ok (Z.of_nat (length ts))
  end.
